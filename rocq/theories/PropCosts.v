(** C65: the encoder's estimates of the number of bits. *)
From Verif Require Import Base BoolCoderModel ParserModel Tables TreeModel MVModel TokenModel TokenProofs RasterModel TransformModel FrameModel QuantModel.
From Verif Require Import PredictModel PredictProofs ResidueModel ResidueProofs MotionModel PropRecon PropResidue CostsModel.
From Verif Require MBProofs PropY4m.

(** What a list of coded bits costs: every bit with its own probability. *)
Definition bits_cost (evs : list event) : Z := fold_right (fun '(b, p) s => cost_bit p b + s) 0 evs.

Lemma bits_cost_app a b : bits_cost (a ++ b) = bits_cost a + bits_cost b.
Proof. induction a as [|[x p] a IH]; cbn [bits_cost fold_right app] in *; [reflexivity|]. fold (bits_cost (a ++ b)) (bits_cost a) in *. lia. Qed.
Lemma bits_cost_cons b p l : bits_cost ((b, p) :: l) = cost_bit p b + bits_cost l.
Proof. reflexivity. Qed.

Lemma prob_cost_range : forallb (fun c => (0 <=? c) && (c <=? 2047)) prob_cost = true.
Proof. vm_compute. reflexivity. Qed.
Lemma cost_bit_range p b : 0 <= cost_bit p b <= 2047.
Proof.
  unfold cost_bit. set (n := Z.to_nat _). destruct (nth_in_or_default n prob_cost 0) as [I| ->]; [|lia].
  pose proof (proj1 (forallb_forall _ _) prob_cost_range _ I) as H. cbn beta in H. lia.
Qed.
Lemma bits_cost_range evs : 0 <= bits_cost evs <= 2047 * zlen evs.
Proof.
  induction evs as [|[b p] l IH]; [cbn; lia|]. rewrite bits_cost_cons. pose proof (cost_bit_range p b).
  unfold zlen in *. cbn [length]. lia.
Qed.

(** * Costs of the symbols of a tree *)

(** The leaves below a node, with the bits and the indices of their
    probabilities on the way. *)
Fixpoint leaves (fuel : nat) (tree : list Z) (index : Z) : option (list (Z * list (bool * Z))) :=
  match fuel with
  | O => None
  | S f =>
      let side (b : bool) :=
        let? e := at_index tree (index + (if b then 1 else 0)) in
        if e <=? 0 then Some [(- e, [(b, index / 2)])]
        else let? l := leaves f tree e in Some (map (fun '(v, p) => (v, (b, index / 2) :: p)) l) in
      let? l := side false in
      let? r := side true in
      Some (l ++ r)
  end.

Definition with_probs (probs : list Z) (path : list (bool * Z)) : list event := map (fun '(b, i) => (b, nth (Z.to_nat i) probs 0)) path.

Lemma with_probs_length probs path : length (with_probs probs path) = length path.
Proof. apply map_length. Qed.

Definition set_leaf (probs : list Z) (current : Z) (c : list Z) (l : Z * list (bool * Z)) : list Z :=
  list_set c (Z.to_nat (fst l)) (wrap 16 (current + bits_cost (with_probs probs (snd l)))).

Definition leaf_ok (np size : Z) (l : Z * list (bool * Z)) : Prop :=
  0 <= fst l < size /\ Forall (fun bi => 0 <= snd bi < np) (snd l).

Lemma wrap_plus a b : wrap 16 (wrap 16 a + b) = wrap 16 (a + b).
Proof. unfold wrap. apply Z.add_mod_idemp_l. lia. Qed.

Lemma at_index_nth (l : list Z) i : 0 <= i < zlen l -> at_index l i = Some (nth (Z.to_nat i) l 0).
Proof. intros H. unfold at_index. replace (i <? 0) with false by lia. apply nth_error_nth'. unfold zlen in H. lia. Qed.

Lemma set_leaf_length probs current ls : forall c, length (fold_left (set_leaf probs current) ls c) = length c.
Proof. induction ls as [|l ls IH]; intros c; cbn [fold_left]; [reflexivity|]. rewrite IH. apply list_set_length. Qed.

Lemma leaves_nonempty tree fuel index : leaves fuel tree index <> Some [].
Proof.
  revert index. induction fuel as [|f IH]; intros index E; [discriminate|]. cbn [leaves] in E.
  destruct (let? e := at_index tree (index + 0) in _) as [l|] eqn:El in E; cbn [obind] in E; [|discriminate].
  destruct (let? e := at_index tree (index + 1) in _) as [r|] eqn:Er in E; cbn [obind] in E; [|discriminate].
  apply some_eq in E. apply app_eq_nil in E. destruct E as [-> _].
  destruct (at_index tree (index + 0)) as [e|] in El; cbn [obind] in El; [|discriminate]. destruct (e <=? 0) in El; [discriminate|].
  destruct (leaves f tree e) as [l|] eqn:E in El; cbn [obind] in El; [|discriminate]. apply some_eq in El. apply map_eq_nil in El. subst. exact (IH _ E).
Qed.

Lemma compute_cost_leaves tree probs : forall fuel index ls, leaves fuel tree index = Some ls ->
  forall costs current, Forall (leaf_ok (zlen probs) (zlen costs)) ls ->
  compute_cost fuel costs probs tree index current = Some (fold_left (set_leaf probs current) ls costs).
Proof.
  induction fuel as [|f IH]; intros index ls E costs current Hok; [discriminate|]. cbn [leaves compute_cost] in *.
  assert (Side : forall b c ls', Forall (leaf_ok (zlen probs) (zlen c)) ls' ->
    (let? e := at_index tree (index + (if b : bool then 1 else 0)) in
     if e <=? 0 then Some [(- e, [(b, index / 2)])]
     else let? l := leaves f tree e in Some (map (fun '(v, p) => (v, (b, index / 2) :: p)) l)) = Some ls' ->
    at_index probs (index / 2) = Some (nth (Z.to_nat (index / 2)) probs 0) /\
    (let? e := at_index tree (index + (if b then 1 else 0)) in
     let cost := wrap 16 (current + cost_bit (nth (Z.to_nat (index / 2)) probs 0) b) in
     if e <=? 0 then set_index c (- e) cost else compute_cost f c probs tree e cost) = Some (fold_left (set_leaf probs current) ls' c)).
  { intros b c ls' Hl E'. destruct (at_index tree (index + (if b then 1 else 0))) as [e|] eqn:Ee in E' |- *; cbn [obind] in *; [|discriminate]. split.
    { apply at_index_nth. destruct (e <=? 0) in E'.
      - apply some_eq in E'. subst ls'. apply Forall_inv in Hl. destruct Hl as [_ Hl]. apply Forall_inv in Hl. exact Hl.
      - pose proof (leaves_nonempty tree f e) as Ne.
        destruct (leaves f tree e) as [[|[v p] l]|] in E', Ne; cbn [obind map] in E'; [congruence| |discriminate]. apply some_eq in E'. subst ls'.
        apply Forall_inv in Hl. destruct Hl as [_ Hl]. apply Forall_inv in Hl. exact Hl. }
    cbv zeta. destruct (e <=? 0) eqn:E0 in E' |- *.
    - apply some_eq in E'. subst ls'. apply Forall_inv in Hl. destruct Hl as [Hv _]. cbn [fst] in Hv. unfold set_index.
      replace ((- e <? 0) || (zlen c <=? - e)) with false by lia. cbn [fold_left]. unfold set_leaf. cbn [fst snd with_probs map].
      rewrite bits_cost_cons. cbn [bits_cost fold_right]. rewrite Z.add_0_r. reflexivity.
    - destruct (leaves f tree e) as [l|] eqn:El in E'; cbn [obind] in E'; [|discriminate]. apply some_eq in E'. subst ls'.
      rewrite (IH e l El).
      + f_equal. clear - l. revert c. induction l as [|[v p] l IHl]; intros c; cbn [fold_left map]; [reflexivity|]. rewrite <- IHl. f_equal.
        unfold set_leaf. cbn [fst snd with_probs map]. rewrite bits_cost_cons, wrap_plus. do 2 f_equal. unfold with_probs. lia.
      + apply Forall_forall. intros [v p] Hi. pose proof (proj1 (Forall_forall _ _) Hl (v, (b, index / 2) :: p)) as G.
        destruct G as [G1 G2]; [apply in_map_iff; exists (v, p); auto|]. split; [exact G1|]. exact (Forall_inv_tail G2). }
  destruct (let? e := at_index tree (index + 0) in _) as [l|] eqn:El in E; cbn [obind] in E; [|discriminate].
  destruct (let? e := at_index tree (index + 1) in _) as [r|] eqn:Er in E; cbn [obind] in E; [|discriminate].
  apply some_eq in E. subst ls. apply Forall_app in Hok. destruct Hok as [Hl Hr].
  cbv zeta in Side. destruct (Side false costs l Hl El) as [P Q]. cbv zeta. rewrite P. cbn [obind ofold]. rewrite Q. cbn [obind].
  destruct (Side true (fold_left (set_leaf probs current) l costs) r) as [_ R]; [|exact Er|].
  - unfold zlen in *. rewrite set_leaf_length. exact Hr.
  - rewrite R. cbn [obind]. rewrite fold_left_app. reflexivity.
Qed.

Lemma set_leaves_other probs current ls v : 0 <= v -> ~ In v (map fst ls) -> forall c, Forall (fun l => 0 <= fst l < zlen c) ls ->
  nth (Z.to_nat v) (fold_left (set_leaf probs current) ls c) 0 = nth (Z.to_nat v) c 0.
Proof.
  intros Hv. induction ls as [|[w p] ls IH]; intros Hn c Hc; cbn [fold_left]; [reflexivity|]. cbn [map fst In] in Hn.
  pose proof (Forall_inv Hc) as Hw. cbn [fst] in Hw. unfold zlen in *.
  rewrite IH; [|tauto|unfold set_leaf; rewrite list_set_length; exact (Forall_inv_tail Hc)].
  unfold set_leaf. cbn [fst snd]. rewrite nth_list_set by lia.
  destruct (Z.to_nat v =? Z.to_nat w)%nat eqn:E; [|reflexivity]. exfalso. apply Hn. left. lia.
Qed.

Lemma set_leaves_at probs current ls v p : NoDup (map fst ls) -> In (v, p) ls -> forall c, Forall (fun l => 0 <= fst l < zlen c) ls ->
  nth (Z.to_nat v) (fold_left (set_leaf probs current) ls c) 0 = wrap 16 (current + bits_cost (with_probs probs p)).
Proof.
  induction ls as [|[w q] ls IH]; intros Hn Hi c Hc; [destruct Hi|]. cbn [fold_left map fst] in *.
  pose proof (Forall_inv Hc) as Hw. cbn [fst] in Hw. apply NoDup_cons_iff in Hn. destruct Hn as [N1 N2].
  assert (Hc' : Forall (fun l => 0 <= fst l < zlen (set_leaf probs current c (w, q))) ls).
  { unfold zlen, set_leaf in *. rewrite list_set_length. exact (Forall_inv_tail Hc). }
  destruct Hi as [E|Hi].
  - injection E as -> ->. rewrite set_leaves_other; [|lia|exact N1|exact Hc'].
    unfold set_leaf. cbn [fst snd]. rewrite nth_list_set by (unfold zlen in Hw; lia). rewrite Nat.eqb_refl. reflexivity.
  - apply IH; assumption.
Qed.

(** All leaves of a tree from a node on, checked by computation: [paths v] is
    the path to the symbol [v]. *)
Fixpoint lookup {A} (ls : list (Z * A)) (v : Z) : option A :=
  match ls with [] => None | (w, p) :: r => if w =? v then Some p else lookup r v end.
Lemma lookup_in {A} (ls : list (Z * A)) v p : lookup ls v = Some p -> In (v, p) ls.
Proof.
  induction ls as [|[w q] ls IH]; cbn [lookup]; [discriminate|]. destruct (w =? v) eqn:E.
  - intros H. apply some_eq in H. subst. left. f_equal. lia.
  - intros H. right. auto.
Qed.
Lemma lookup_none {A} (ls : list (Z * A)) v : lookup ls v = None -> ~ In v (map fst ls).
Proof.
  induction ls as [|[w q] ls IH]; cbn [lookup map fst In]; [tauto|]. destruct (w =? v) eqn:E; [discriminate|].
  intros H [G|G]; [lia|]. exact (IH H G).
Qed.

Fixpoint distinct (l : list Z) : bool := match l with [] => true | a :: r => negb (existsb (Z.eqb a) r) && distinct r end.
Lemma distinct_nodup l : distinct l = true -> NoDup l.
Proof.
  induction l as [|a l IH]; intros H; constructor; cbn [distinct] in H; apply andb_true_iff in H; destruct H as [A B]; [|auto].
  intros I. apply negb_true_iff in A. rewrite <- not_true_iff_false in A. apply A. apply existsb_exists. exists a. split; [exact I|lia].
Qed.

Definition tree_good (tree : list Z) (start np size : Z) (ls : list (Z * list (bool * Z))) : Prop :=
  leaves (length tree) tree start = Some ls /\
  forallb (fun '(v, p) => (0 <=? v) && (v <? size) && (length p <? 32)%nat && forallb (fun '(b, i) => (0 <=? i) && (i <? np)) p) ls = true /\
  distinct (map fst ls) = true.

Lemma tree_good_costs tree start np size ls costs probs : tree_good tree start np size ls ->
  zlen probs = np -> zlen costs = size ->
  exists costs', tree_costs costs probs tree start = Some costs' /\ zlen costs' = size /\
    forall v, 0 <= v -> nth (Z.to_nat v) costs' 0 =
      match lookup ls v with Some p => bits_cost (with_probs probs p) | None => nth (Z.to_nat v) costs 0 end.
Proof.
  intros (E & G & D) Lp Lc. pose proof (proj1 (forallb_forall _ _) G) as G'. clear G.
  assert (A : Forall (leaf_ok (zlen probs) (zlen costs)) ls).
  { apply Forall_forall. intros [v p] I. specialize (G' _ I). cbn beta iota in G'.
    apply andb_true_iff in G'. destruct G' as [G1 G2]. split; cbn [fst snd]; [lia|]. apply Forall_forall. intros [b i] J.
    pose proof (proj1 (forallb_forall _ _) G2 _ J) as G3. cbn beta iota in G3. cbn [snd]. lia. }
  assert (B : Forall (fun l => 0 <= fst l < zlen costs) ls).
  { eapply Forall_impl; [|exact A]. intros l [H _]. exact H. }
  eexists. split; [apply (compute_cost_leaves _ _ _ _ _ E _ _ A)|]. split; [unfold zlen in *; rewrite set_leaf_length; exact Lc|].
  intros v Hv. destruct (lookup ls v) as [p|] eqn:El.
  - apply lookup_in in El. rewrite (set_leaves_at probs 0 ls v p (distinct_nodup _ D) El costs B).
    specialize (G' _ El). cbn beta iota in G'. pose proof (bits_cost_range (with_probs probs p)) as R.
    unfold zlen in R. rewrite with_probs_length in R. rewrite Z.add_0_l. unfold wrap. apply Z.mod_small.
    change (2 ^ 16) with 65536. lia.
  - apply set_leaves_other; [exact Hv|exact (lookup_none _ _ El)|exact B].
Qed.

(** The trees for which the encoder has costs, with the numbers of their
    probabilities and of the entries of the tables. *)
Definition costed_trees : list (list Z * Z * Z) :=
  [(kf_y_mode_tree, 4, 10); (y_mode_tree, 4, 10); (uv_mode_tree, 3, 4); (b_mode_tree, 9, 10); (mv_ref_tree, 4, 10); (coef_tree, 11, 12)].

Definition all_leaves (tree : list Z) (start : Z) := match leaves (length tree) tree start with Some l => l | None => [] end.

Definition path_eqb (p q : list (bool * Z)) : bool :=
  (length p =? length q)%nat && forallb (fun '((a, i), (b, j)) => Bool.eqb a b && (i =? j)) (combine p q).
Lemma path_eqb_eq p : forall q, path_eqb p q = true -> p = q.
Proof.
  induction p as [|[a i] p IH]; intros [|[b j] q] H; try discriminate; [reflexivity|]. unfold path_eqb in *. cbn [length Nat.eqb combine forallb] in H.
  apply andb_true_iff in H. destruct H as [H1 H2]. apply andb_true_iff in H2. destruct H2 as [H2 H3]. apply andb_true_iff in H2. destruct H2 as [H2 H4].
  apply eqb_prop in H2. subst b. f_equal; [f_equal; lia|]. apply IH. rewrite H3. cbn [length] in H1. rewrite H1. reflexivity.
Qed.
Definition same_paths (f g : Z -> option (list (bool * Z))) (size : Z) : bool :=
  forallb (fun v => match f v, g v with Some p, Some q => path_eqb p q | None, None => true | _, _ => false end) (zseq size).
Lemma same_paths_eq f g size v : same_paths f g size = true -> 0 <= v < size -> f v = g v.
Proof.
  intros H Hv. unfold same_paths in H. rewrite forallb_forall in H. specialize (H v). cbn beta in H.
  assert (I : In v (zseq size)) by (unfold zseq; apply in_map_iff; exists (Z.to_nat v); split; [lia|apply in_seq; lia]).
  specialize (H I). destruct (f v), (g v); try discriminate; [|reflexivity]. f_equal. apply path_eqb_eq, H.
Qed.

Lemma costed_good tree np size : In (tree, np, size) costed_trees ->
  tree_good tree 0 np size (all_leaves tree 0) /\ same_paths (tree_path tree) (lookup (all_leaves tree 0)) size = true.
Proof.
  unfold costed_trees. cbn [In]. intros H.
  repeat (destruct H as [H|H]; [injection H as <- <- <-; split; [split; [|split]|]; vm_compute; reflexivity|]). destruct H.
Qed.

(** For every tree and all probabilities: the entry of a symbol is the cost of
    the bits with which the symbol is written; the other entries do not
    change. *)
Theorem C65_tree :
  forall tree np size, In (tree, np, size) costed_trees ->
  forall costs probs, zlen probs = np -> zlen costs = size ->
  exists costs', tree_costs costs probs tree 0 = Some costs' /\ zlen costs' = size /\
    forall v, 0 <= v < size ->
      nth (Z.to_nat v) costs' 0 = match tree_encode tree probs v with Some evs => bits_cost evs | None => nth (Z.to_nat v) costs 0 end.
Proof.
  intros tree np size H costs probs Lp Lc. destruct (costed_good tree np size H) as [G P].
  destruct (tree_good_costs tree 0 np size _ costs probs G Lp Lc) as (c & E & L & K). exists c. split; [exact E|]. split; [exact L|].
  intros v Hv. rewrite K by lia. unfold tree_encode. rewrite (same_paths_eq _ _ _ _ P Hv).
  destruct (lookup _ v); reflexivity.
Qed.

(** Where no end of block is possible, the first bit is not counted; the entry
    of the end of block keeps its value. *)
Lemma tail_good : tree_good coef_tree 2 11 12 (all_leaves coef_tree 2) /\
  same_paths (fun v => if v =? EOB_token then None else option_map (@tl _) (tree_path coef_tree v)) (lookup (all_leaves coef_tree 2)) 12 = true.
Proof. split; [split; [|split]|]; vm_compute; reflexivity. Qed.

Theorem C65_tree_tail :
  forall costs probs, zlen probs = 11 -> zlen costs = 12 ->
  exists costs', tree_costs costs probs coef_tree 2 = Some costs' /\ zlen costs' = 12 /\
    nth (Z.to_nat EOB_token) costs' 0 = nth (Z.to_nat EOB_token) costs 0 /\
    forall v evs, 0 <= v < EOB_token -> tree_encode coef_tree probs v = Some evs -> nth (Z.to_nat v) costs' 0 = bits_cost (tl evs).
Proof.
  intros costs probs Lp Lc. destruct tail_good as [G P].
  destruct (tree_good_costs coef_tree 2 11 12 _ costs probs G Lp Lc) as (c & E & L & K). exists c. split; [exact E|]. split; [exact L|]. split.
  - rewrite K by (unfold EOB_token; lia). rewrite <- (same_paths_eq _ _ _ EOB_token P) by (unfold EOB_token; lia). reflexivity.
  - intros v evs Hv Ev. unfold EOB_token in Hv. rewrite K by lia. rewrite <- (same_paths_eq _ _ _ v P) by lia.
    unfold EOB_token. replace (v =? 11) with false by lia. unfold tree_encode in Ev.
    destruct (tree_path coef_tree v) as [[|x p]|]; cbn [option_map] in *; [| |discriminate]; apply some_eq in Ev; subst evs; reflexivity.
Qed.

Example C65_tree_example :
  let probs := [253; 136; 254; 255; 228; 219; 128; 128; 128; 128; 128] in
  exists c, tree_costs (repeat 7 12) probs coef_tree 0 = Some c /\ tree_costs (repeat 7 12) probs coef_tree 2 <> Some c /\
    match tree_encode coef_tree probs 5 with Some evs => (length evs = 6)%nat /\ 0 < bits_cost evs | None => False end.
Proof. eexists. split; [vm_compute; reflexivity|]. split; [vm_compute; discriminate|]. vm_compute. auto. Qed.

(** * Motion vectors *)

Definition plus16 (a b : Z) : Z := wrap 16 (a + b).
Lemma tree_cost_plus token bits tree probs : tree_cost token bits tree probs =
  option_map snd (ofold (fun '(index, cost) n =>
    let bit := Z.testbit token (Z.of_nat n) in
    let? p := at_index probs (index / 2) in
    let? e := at_index tree (index + (if bit then 1 else 0)) in
    Some (e, plus16 cost (cost_bit p bit))) (rev (seq 0 bits)) (0, 0)).
Proof. reflexivity. Qed.

Lemma small_tree_cost x probs : 0 <= x < 8 -> length probs = 7%nat ->
  exists evs, tree_encode small_mv_tree probs x = Some evs /\ length evs = 3%nat /\ tree_cost x 3 small_mv_tree probs = Some (bits_cost evs).
Proof.
  intros Hx Hp. do 7 (destruct probs as [|? probs]; [discriminate|]). destruct probs; [|discriminate]. clear Hp.
  assert (C : x = 0 \/ x = 1 \/ x = 2 \/ x = 3 \/ x = 4 \/ x = 5 \/ x = 6 \/ x = 7) by lia. clear Hx.
  repeat (destruct C as [C|C]); subst x;
    (eexists; split; [lazy -[cost_bit]; reflexivity|]; split; [reflexivity|]; rewrite tree_cost_plus; lazy -[plus16 cost_bit bits_cost];
     unfold bits_cost, fold_right, plus16;
     repeat match goal with |- context [cost_bit ?p ?b] => pose proof (cost_bit_range p b); generalize dependent (cost_bit p b); intros end;
     f_equal; unfold wrap; change (2 ^ 16) with 65536; lia).
Qed.

(** [num]: at most 1023 in magnitude. *)
Lemma mv_component_cost_spec num probs : length probs = 19%nat -> 0 <= num <= 1023 ->
  exists evs, write_component probs num = Some evs /\
    exists c, mv_component_cost num probs = Some c /\ 0 <= c <= 30000 /\
      bits_cost evs = c + (if Z.shiftr num 1 =? 0 then 0 else cost_bit (nth SIGN probs 0) false) /\
      exists evs', write_component probs (- (2 * Z.shiftr num 1)) = Some evs' /\
        bits_cost evs' = c + (if Z.shiftr num 1 =? 0 then 0 else cost_bit (nth SIGN probs 0) true).
Proof.
  intros Lp Hn. rewrite Z.shiftr_div_pow2 by lia. change (2 ^ 1) with 2.
  set (x := num / 2). assert (Hx : 0 <= x <= 511) by (unfold x; lia).
  unfold write_component, mv_component_cost. rewrite !Z.shiftr_div_pow2 by lia. change (2 ^ 1) with 2. fold x.
  replace (- (2 * x) / 2) with (- x) by lia. rewrite Z.abs_opp. rewrite Z.abs_eq by lia.
  replace (wrap 16 x) with x by (symmetry; unfold wrap; apply Z.mod_small; change (2 ^ 16) with 65536; lia).
  replace (x <? 0) with false by lia.
  assert (S1 : x <> 0 -> (- x <? 0) = true) by lia.
  destruct (x <? 8) eqn:E8.
  - destruct (small_tree_cost x (firstn 7 (skipn SHORT probs))) as (evs & E & L & K); [lia|rewrite firstn_length, skipn_length, Lp; reflexivity|].
    rewrite E, K. cbn [obind]. eexists. split; [reflexivity|]. eexists. split; [reflexivity|].
    pose proof (bits_cost_range evs) as R. unfold zlen in R. rewrite L in R. pose proof (cost_bit_range (nth IS_SHORT probs 0) false).
    split; [lia|]. split.
    + rewrite !bits_cost_app. cbn [app]. rewrite bits_cost_cons. destruct (x =? 0); cbn [bits_cost fold_right]; lia.
    + eexists. split; [reflexivity|]. rewrite !bits_cost_app. cbn [app]. rewrite bits_cost_cons.
      destruct (x =? 0) eqn:E0; cbn [bits_cost fold_right]; [lia|]. rewrite S1 by lia. lia.
  - eexists. split; [reflexivity|]. eexists. split; [reflexivity|]. replace (x =? 0) with false by lia. rewrite S1 by lia.
    set (last := Z.land x 65520). change (Z.testbit x (Z.of_nat 3)) with (Z.testbit x 3). unfold long_bits. cbn [fold_left map app].
    split; [|split; [|eexists; split; [reflexivity|]]].
    1: repeat match goal with |- context [cost_bit ?p ?b] => pose proof (cost_bit_range p b); generalize dependent (cost_bit p b); intros end; destruct (last =? 0); lia.
    all: rewrite !bits_cost_cons, ?bits_cost_app; destruct (last =? 0); cbn [bits_cost fold_right];
      repeat match goal with |- context [cost_bit ?p ?b] => generalize (cost_bit p b); intros end; lia.
Qed.

Lemma omap_at {B} (f : Z -> option B) n : (forall i, 0 <= i < n -> exists b, f i = Some b) ->
  exists l, omap f (zseq n) = Some l /\ forall i, 0 <= i < n -> exists b, f i = Some b /\ nth_error l (Z.to_nat i) = Some b.
Proof.
  intros H. assert (Ex : exists l, omap f (zseq n) = Some l).
  { assert (G : forall i, In i (zseq n) -> exists b, f i = Some b).
    { intros i I. apply H. unfold zseq in I. apply in_map_iff in I. destruct I as (k & <- & I). apply in_seq in I. lia. }
    induction (zseq n) as [|a l IH]; [eexists; reflexivity|]. cbn [omap]. destruct (G a (or_introl eq_refl)) as [b ->].
    destruct IH as [l' ->]; [intros i I; apply G; right; exact I|]. eauto. }
  destruct Ex as [l E]. exists l. split; [exact E|]. intros i Hi. destruct (H i Hi) as [b Eb]. exists b. split; [exact Eb|].
  pose proof (omap_length f _ _ E) as L. unfold zseq in L. rewrite map_length, seq_length in L.
  destruct (nth_error l (Z.to_nat i)) as [b'|] eqn:Eb'; [|apply nth_error_None in Eb'; lia].
  assert (Ei : nth_error (zseq n) (Z.to_nat i) = Some i).
  { unfold zseq. rewrite nth_error_map. rewrite nth_error_nth' with (d := 0%nat) by (rewrite seq_length; lia).
    rewrite seq_nth by lia. cbn [option_map]. f_equal. lia. }
  rewrite <- (omap_nth f _ _ E _ _ _ Ei Eb'). exact Eb.
Qed.

Lemma mv_axis_spec probs : length probs = 19%nat ->
  exists t, mv_axis_costs probs = Some t /\ forall n, Z.even n = true -> Z.abs n <= 1022 ->
    exists evs row, write_component probs n = Some evs /\ nth_error t (if n <? 0 then 1%nat else 0%nat) = Some row /\
      nth_error row (Z.to_nat (Z.abs n)) = Some (bits_cost evs) /\ bits_cost evs <= 32047.
Proof.
  intros Lp.
  assert (Row : forall sign : bool, exists row, (let? zero := mv_component_cost 0 probs in
      let? rest := omap (fun i => let? c := mv_component_cost (i + 1) probs in Some (wrap 32 (c + cost_bit (nth SIGN probs 0) sign))) (zseq 1023) in
      Some (zero :: rest)) = Some row /\
    forall m, Z.even m = true -> 0 <= m <= 1022 -> (m = 0 -> sign = false) ->
      exists evs, write_component probs (if sign then - m else m) = Some evs /\ nth_error row (Z.to_nat m) = Some (bits_cost evs) /\ bits_cost evs <= 32047).
  { intros sign. destruct (mv_component_cost_spec 0 probs Lp ltac:(lia)) as (e0 & W0 & c0 & -> & R0 & B0 & _). cbn [obind].
    destruct (omap_at (fun i => let? c := mv_component_cost (i + 1) probs in Some (wrap 32 (c + cost_bit (nth SIGN probs 0) sign))) 1023) as (rest & E & K).
    { intros i Hi. destruct (mv_component_cost_spec (i + 1) probs Lp ltac:(lia)) as (_ & _ & c & -> & _). cbn [obind]. eauto. }
    rewrite E. cbn [obind]. eexists. split; [reflexivity|]. intros m Ev Hm Hs.
    destruct (Z.eq_dec m 0) as [->|N].
    - rewrite Hs by reflexivity. exists e0. split; [exact W0|]. change (Z.shiftr 0 1 =? 0) with true in B0. cbv iota in B0. split; [cbn [Z.to_nat nth_error]; f_equal; lia|lia].
    - destruct (K (m - 1) ltac:(lia)) as (b & Eb & Nb). cbn beta in Eb. replace (m - 1 + 1) with m in Eb by lia.
      destruct (mv_component_cost_spec m probs Lp ltac:(lia)) as (evs & W & c & Ec & R & B & evs' & W' & B').
      rewrite Ec in Eb. cbn [obind] in Eb. apply some_eq in Eb. subst b.
      assert (D : 2 * Z.shiftr m 1 = m /\ (Z.shiftr m 1 =? 0) = false).
      { rewrite Z.shiftr_div_pow2 by lia. change (2 ^ 1) with 2. apply Z.even_spec in Ev. destruct Ev as [k Ek]. lia. }
      destruct D as [D1 D2]. rewrite D1 in W'. rewrite D2 in B, B'.
      replace (Z.to_nat m) with (S (Z.to_nat (m - 1))) by lia. cbn [nth_error]. rewrite Nb.
      pose proof (cost_bit_range (nth SIGN probs 0) sign) as Rs. unfold wrap. rewrite Z.mod_small by (change (2 ^ 32) with 4294967296; lia).
      destruct sign; [exists evs'|exists evs]; (split; [assumption|]); (split; [f_equal; lia|lia]). }
  destruct (Row false) as (r0 & E0 & K0), (Row true) as (r1 & E1 & K1).
  exists [r0; r1]. split; [unfold mv_axis_costs; cbn [omap]; rewrite E0, E1; reflexivity|].
  intros n Ev Hn. destruct (n <? 0) eqn:Es.
  - destruct (K1 (- n)) as (evs & W & N & Bd); [rewrite Z.even_opp; exact Ev|lia|lia|]. exists evs, r1. rewrite Z.opp_involutive in W.
    split; [exact W|]. split; [reflexivity|]. split; [rewrite <- N; f_equal; lia|exact Bd].
  - destruct (K0 n) as (evs & W & N & Bd); [exact Ev|lia|reflexivity|]. exists evs, r0. split; [exact W|]. split; [reflexivity|]. split; [rewrite <- N; f_equal; lia|exact Bd].
Qed.

(** For all probabilities: the tables of motion vector costs can be filled,
    and the entry of every component the encoder can write (an even number in
    quarter pixels) is the cost of its bits. *)
Theorem C65_mv :
  forall probs, length probs = 38%nat ->
  exists t, mv_costs probs = Some t /\
    forall axis n, (axis < 2)%nat -> Z.even n = true -> Z.abs n <= 1022 ->
      exists evs, write_component (if (axis =? 0)%nat then firstn 19 probs else skipn 19 probs) n = Some evs /\
                  mv_table t axis n = Some (bits_cost evs) /\ bits_cost evs <= 32047.
Proof.
  intros probs Lp.
  destruct (mv_axis_spec (firstn 19 probs)) as (ty & Ey & Ky); [rewrite firstn_length, Lp; reflexivity|].
  destruct (mv_axis_spec (skipn 19 probs)) as (tx & Ex & Kx); [rewrite skipn_length, Lp; reflexivity|].
  exists [ty; tx]. split; [unfold mv_costs; cbn [omap]; rewrite Ey, Ex; reflexivity|].
  intros axis n Ha Ev Hn. unfold mv_table.
  destruct axis as [|[|axis]]; [| |lia]; cbn [Nat.eqb nth_error obind].
  - destruct (Ky n Ev Hn) as (evs & row & W & A & B & Bd). exists evs. split; [exact W|]. rewrite A. split; [exact B|exact Bd].
  - destruct (Kx n Ev Hn) as (evs & row & W & A & B & Bd). exists evs. split; [exact W|]. rewrite A. split; [exact B|exact Bd].
Qed.

(** The cost of a vector: the bits of both components, weighted. *)
Theorem C65_mv_weighted :
  forall probs t v weight, length probs = 38%nat -> mv_costs probs = Some t -> 0 <= weight <= 65536 ->
  Z.even (fst v) = true -> Z.even (snd v) = true -> Z.abs (fst v) <= 1022 -> Z.abs (snd v) <= 1022 ->
  exists evs, write_mv probs v = Some evs /\ motion_vector_cost t v weight = Some (bits_cost evs * weight / 128).
Proof.
  intros probs t [x y] weight Lp Et Hw Ex Ey Hx Hy. cbn [fst snd] in *. destruct (C65_mv probs Lp) as (t' & Et' & K).
  rewrite Et in Et'. apply some_eq in Et'. subst t'.
  destruct (K 0%nat y ltac:(lia) Ey Hy) as (ey & Wy & Ty & By). destruct (K 1%nat x ltac:(lia) Ex Hx) as (ex & Wx & Tx & Bx). cbn [Nat.eqb] in *.
  exists (ey ++ ex). unfold write_mv. cbn [fst snd]. rewrite Wy, Wx. split; [reflexivity|].
  unfold motion_vector_cost. cbn [fst snd]. rewrite Ty, Tx. cbn [obind]. rewrite bits_cost_app.
  pose proof (bits_cost_range ey) as [Ry _]. pose proof (bits_cost_range ex) as [Rx _].
  generalize dependent (bits_cost ey). generalize dependent (bits_cost ex). intros a _ Ha Ha' b _ Hb Hb'. f_equal.
  unfold wrap. change (2 ^ 32) with 4294967296. rewrite (Z.mod_small (b + a)) by lia. apply Z.mod_small. nia.
Qed.

(** An example: (-9.5, 300) pixels, with the default probabilities. *)
Example C65_mv_example :
  exists evs, write_mv k_default_mv_probs (-38, 1000) = Some evs /\ (length evs = 24)%nat /\ 0 < bits_cost evs.
Proof. eexists. split; [vm_compute; reflexivity|]. split; vm_compute; reflexivity. Qed.

(** * Tokens *)

(** The bits of a coefficient after its token. *)
Definition extra_events (c : Z) : list event :=
  let v := Z.abs c in
  (if v <=? 4 then []
   else if v <? 7 then [(v =? 6, 159)]
   else if v <? 11 then td_events token_decoder_1 v
   else if v <? 19 then td_events token_decoder_2 v
   else if v <? 35 then td_events token_decoder_3 v
   else if v <? 67 then td_events token_decoder_4 v
   else td_events token_decoder_5 v) ++ (if v =? 0 then [] else [(c <? 0, 128)]).

Definition half_costs (l : list Z) (neg : bool) : bool :=
  fst (fold_left (fun '(ok, v) cost => (ok && (bits_cost (extra_events (if neg : bool then - v else v)) =? cost), v + 1)) l (true, 0)).
Lemma value_costs_pos : half_costs (skipn (Z.to_nat 2048) dct_value_cost) false = true.
Proof. vm_compute. reflexivity. Qed.
Lemma value_costs_neg : half_costs (rev (firstn (Z.to_nat 2049) dct_value_cost)) true = true.
Proof. vm_compute. reflexivity. Qed.
Lemma value_costs_length : zlen dct_value_cost = 4096.
Proof. vm_compute. reflexivity. Qed.

Lemma half_costs_nth l neg : half_costs l neg = true -> forall k, (k < length l)%nat ->
  nth k l 0 = bits_cost (extra_events (if neg then - Z.of_nat k else Z.of_nat k)).
Proof.
  unfold half_costs.
  assert (G : forall l ok v, fst (fold_left (fun '(ok, v) cost => (ok && (bits_cost (extra_events (if neg : bool then - v else v)) =? cost), v + 1)) l (ok, v)) = true ->
    ok = true /\ forall k, (k < length l)%nat -> nth k l 0 = bits_cost (extra_events (if neg then - (v + Z.of_nat k) else v + Z.of_nat k))).
  { clear l. induction l as [|a l IH]; intros ok v H; cbn [fold_left fst length] in *; [split; [exact H|intros; lia]|].
    apply IH in H. destruct H as [A B]. apply andb_true_iff in A. destruct A as [A A']. split; [exact A|].
    intros [|k] Hk; cbn [nth].
    - rewrite Z.add_0_r. lia.
    - rewrite B by lia. replace (v + 1 + Z.of_nat k) with (v + Z.of_nat (S k)) by lia. reflexivity. }
  intros H k Hk. apply G in H. destruct H as [_ H]. rewrite (H k Hk). rewrite Z.add_0_l. reflexivity.
Qed.

Lemma value_cost_spec c : -2048 <= c <= 2047 -> nth (Z.to_nat (2048 + c)) dct_value_cost 0 = bits_cost (extra_events c).
Proof.
  intros Hc. pose proof value_costs_length as L. unfold zlen in L. destruct (Z_lt_le_dec c 0) as [N|P].
  - pose proof (half_costs_nth _ _ value_costs_neg (Z.to_nat (- c))) as H.
    rewrite rev_length, firstn_length in H. specialize (H ltac:(lia)). cbv iota in H.
    replace (- Z.of_nat (Z.to_nat (- c))) with c in H by lia. rewrite <- H.
    rewrite rev_nth by (rewrite firstn_length; lia). rewrite firstn_length.
    rewrite MBProofs.nth_firstn by lia. f_equal. lia.
  - pose proof (half_costs_nth _ _ value_costs_pos (Z.to_nat c)) as H. rewrite skipn_length in H. specialize (H ltac:(lia)). cbv iota in H.
    rewrite Z2Nat.id in H by lia. rewrite <- H. rewrite PropY4m.nth_skipn. f_equal. lia.
Qed.

Definition token_path (v : Z) : list (bool * Z) := match tree_path coef_tree v with Some l => l | None => [] end.
(** The bits of a token, with the probabilities [p]; from the second bit on
    if an end of block is not possible. *)
Definition token_bits (p : Z -> Z) (skip : bool) (v : Z) : list event :=
  map (fun '(b, i) => (b, p i)) (if skip then tl (token_path v) else token_path v).

Lemma token_tails p :
  token_bits p true 0 = [(false, p 1)] /\
  token_bits p true 1 = [(true, p 1); (false, p 2)] /\
  token_bits p true 2 = [(true, p 1); (true, p 2); (false, p 3); (false, p 4)] /\
  token_bits p true 3 = [(true, p 1); (true, p 2); (false, p 3); (true, p 4); (false, p 5)] /\
  token_bits p true 4 = [(true, p 1); (true, p 2); (false, p 3); (true, p 4); (true, p 5)] /\
  token_bits p true 5 = [(true, p 1); (true, p 2); (true, p 3); (false, p 6); (false, p 7)] /\
  token_bits p true 6 = [(true, p 1); (true, p 2); (true, p 3); (false, p 6); (true, p 7)] /\
  token_bits p true 7 = [(true, p 1); (true, p 2); (true, p 3); (true, p 6); (false, p 8); (false, p 9)] /\
  token_bits p true 8 = [(true, p 1); (true, p 2); (true, p 3); (true, p 6); (false, p 8); (true, p 9)] /\
  token_bits p true 9 = [(true, p 1); (true, p 2); (true, p 3); (true, p 6); (true, p 8); (false, p 10)] /\
  token_bits p true 10 = [(true, p 1); (true, p 2); (true, p 3); (true, p 6); (true, p 8); (true, p 10)].
Proof. repeat split. Qed.
Lemma token_bits_whole p v : 0 <= v < 11 -> token_bits p false v = (true, p 0) :: token_bits p true v.
Proof.
  intros H. assert (C : v = 0 \/ v = 1 \/ v = 2 \/ v = 3 \/ v = 4 \/ v = 5 \/ v = 6 \/ v = 7 \/ v = 8 \/ v = 9 \/ v = 10) by lia. clear H.
  repeat (destruct C as [C|C]); subst v; reflexivity.
Qed.

Lemma value_events_cost p c ve ctx : -2048 <= c <= 2047 -> c <> 0 -> value_events p c = Some (ve, ctx) ->
  cost_bit (p 1) true + bits_cost ve = bits_cost (token_bits p true (token_for_coeff c)) + bits_cost (extra_events c) /\
  ctx = prev_token_class (token_for_coeff c).
Proof.
  intros Hc N E. unfold value_events in E. unfold token_for_coeff, extra_events.
  change (base_value token_decoder_1) with 7 in E. change (upper_limit token_decoder_1) with 11 in E. change (upper_limit token_decoder_2) with 19 in E.
  change (upper_limit token_decoder_3) with 35 in E. change (upper_limit token_decoder_4) with 67 in E. change (upper_limit token_decoder_5) with 2115 in E.
  set (v := Z.abs c) in *. assert (Hv : 1 <= v <= 2048) by (unfold v; lia). clearbody v.
  remember (c <? 0) as neg eqn:En. clear En N Hc c.
  destruct (token_tails p) as (T0 & T1 & T2 & T3 & T4 & T5 & T6 & T7 & T8 & T9 & T10).
  Ltac decide_ifs H v := repeat match goal with
    | |- context [v <=? ?k] => first [replace (v <=? k) with true by lia | replace (v <=? k) with false by lia]
    | |- context [v <? ?k] => first [replace (v <? k) with true by lia | replace (v <? k) with false by lia]
    end; repeat match type of H with
    | context [v =? 6] => fail 1
    | context [v =? ?k] => first [replace (v =? k) with true in H by lia | replace (v =? k) with false in H by lia]
    | context [v <? ?k] => first [replace (v <? k) with true in H by lia | replace (v <? k) with false in H by lia]
    end.
  assert (C : v = 1 \/ v = 2 \/ v = 3 \/ v = 4 \/ 5 <= v < 7 \/ 7 <= v < 11 \/ 11 <= v < 19 \/ 19 <= v < 35 \/ 35 <= v < 67 \/ 67 <= v < 2115) by lia.
  destruct C as [C|[C|[C|[C|C]]]].
  1,2,3,4: subst v; cbn in E; apply some_eq in E; apply pair_equal_spec in E; destruct E as [<- <-]; (split; [|reflexivity]);
    cbn [Z.leb Z.eqb Z.compare Pos.compare Pos.compare_cont app Pos.eqb]; rewrite ?T1, ?T2, ?T3, ?T4; rewrite !bits_cost_cons; cbn [bits_cost fold_right]; lia.
  generalize dependent (v =? 6). intros six. intros E.
  repeat (destruct C as [C|C]);
   (replace (v =? 0) with false by lia; decide_ifs E v; cbn [option_map app] in E; apply some_eq in E; apply pair_equal_spec in E; destruct E as [<- <-];
    (split; [|reflexivity]); rewrite ?T5, ?T6, ?T7, ?T8, ?T9, ?T10; rewrite ?bits_cost_cons, ?bits_cost_app, ?bits_cost_cons; cbn [bits_cost fold_right]; lia).
Qed.

(** A table of token costs of the right size. *)
Definition table_sized (t : token_table) : Prop :=
  forall type band ctx, 0 <= type < 4 -> 0 <= band < 8 -> 0 <= ctx < 3 -> exists e, entry t type band ctx = Some e /\ zlen e = 12.

Lemma at_index_error {A} (l : list A) i : 0 <= i -> at_index l i = nth_error l (Z.to_nat i).
Proof. intros H. unfold at_index. replace (i <? 0) with false by lia. reflexivity. Qed.

Lemma context_probs_nth tbl type band ctx i : 0 <= i < 11 -> nth (Z.to_nat i) (context_probs tbl type band ctx) 0 = coeff_prob tbl type band ctx i.
Proof.
  intros H. unfold context_probs, zseq. rewrite map_map.
  rewrite nth_indep with (d' := coeff_prob tbl type band ctx (Z.of_nat 0)) by (rewrite map_length, seq_length; lia).
  rewrite (map_nth (fun k => coeff_prob tbl type band ctx (Z.of_nat k)) (seq 0 (Z.to_nat 11)) 0%nat).
  rewrite seq_nth by lia. f_equal. lia.
Qed.

Definition skips (type band ctx : Z) : bool := (ctx =? 0) && ((if type =? 0 then 1 else 0) <? band).

Lemma token_paths_checked : forallb (fun v => forallb (fun '(b, i) => (0 <=? i) && (i <? 11)) (token_path v) &&
    match tree_path coef_tree v with Some _ => true | None => false end) (zseq 12) = true.
Proof. vm_compute. reflexivity. Qed.
Lemma in_zseq v n : 0 <= v < n -> In v (zseq n).
Proof. intros H. unfold zseq. apply in_map_iff. exists (Z.to_nat v). split; [lia|apply in_seq; lia]. Qed.
Lemma token_path_indices v : 0 <= v < 12 -> Forall (fun bi => 0 <= snd bi < 11) (token_path v) /\ tree_path coef_tree v = Some (token_path v).
Proof.
  intros H. pose proof (proj1 (forallb_forall _ _) token_paths_checked v (in_zseq v 12 H)) as G. cbn beta in G.
  apply andb_true_iff in G. destruct G as [A B]. split.
  - apply Forall_forall. intros [b i] I. pose proof (proj1 (forallb_forall _ _) A _ I) as G. cbn beta iota in G. cbn [snd]. lia.
  - unfold token_path. destruct (tree_path coef_tree v); [reflexivity|discriminate].
Qed.

Lemma with_context_probs tbl type band ctx path : Forall (fun bi => 0 <= snd bi < 11) path ->
  with_probs (context_probs tbl type band ctx) path = map (fun '(b, i) => (b, coeff_prob tbl type band ctx i)) path.
Proof.
  intros H. induction H as [|[b i] l Hi _ IH]; [reflexivity|]. cbn [with_probs map]. unfold with_probs in IH. rewrite IH.
  rewrite context_probs_nth by exact Hi. reflexivity.
Qed.

Lemma fill_spec old tbl : table_sized old ->
  exists t, fill_token_costs old tbl = Some t /\ table_sized t /\
    forall type band ctx, 0 <= type < 4 -> 0 <= band < 8 -> 0 <= ctx < 3 ->
      exists e, entry t type band ctx = Some e /\
        (forall token, 0 <= token < 11 ->
           at_index e token = Some (bits_cost (token_bits (coeff_prob tbl type band ctx) (skips type band ctx) token))) /\
        at_index e EOB_token = if skips type band ctx then (let? o := entry old type band ctx in at_index o EOB_token)
                               else Some (cost_bit (coeff_prob tbl type band ctx 0) false).
Proof.
  intros Ho.
  assert (One : forall type band ctx, 0 <= type < 4 -> 0 <= band < 8 -> 0 <= ctx < 3 ->
    exists e, (let? o := entry old type band ctx in tree_costs o (context_probs tbl type band ctx) coef_tree (costs_start type band ctx)) = Some e /\ zlen e = 12 /\
      (forall token, 0 <= token < 11 ->
         at_index e token = Some (bits_cost (token_bits (coeff_prob tbl type band ctx) (skips type band ctx) token))) /\
      at_index e EOB_token = if skips type band ctx then (let? o := entry old type band ctx in at_index o EOB_token)
                             else Some (cost_bit (coeff_prob tbl type band ctx 0) false)).
  { intros type band ctx Ht Hb Hc. destruct (Ho type band ctx Ht Hb Hc) as (o & -> & Lo). cbn [obind].
    unfold costs_start. fold (skips type band ctx). destruct (skips type band ctx) eqn:Es.
    - destruct (C65_tree_tail o (context_probs tbl type band ctx) eq_refl Lo) as (e & E & L & Ke & K).
      exists e. split; [rewrite E; reflexivity|]. split; [exact L|]. split.
      + intros token Hk. rewrite at_index_nth by lia. f_equal. destruct (token_path_indices token ltac:(lia)) as [I P].
        rewrite (K token (with_probs (context_probs tbl type band ctx) (token_path token)));
          [|unfold EOB_token; lia|unfold tree_encode; rewrite P; reflexivity].
        rewrite with_context_probs by exact I. unfold token_bits. destruct (token_path token); reflexivity.
      + rewrite !at_index_nth by (unfold EOB_token; lia). f_equal. exact Ke.
    - destruct (C65_tree coef_tree 11 12 ltac:(unfold costed_trees; cbn [In]; tauto) o (context_probs tbl type band ctx) eq_refl Lo) as (e & E & L & K).
      exists e. split; [exact E|]. split; [exact L|]. split.
      + intros token Hk. rewrite at_index_nth by lia. f_equal. destruct (token_path_indices token ltac:(lia)) as [I P].
        rewrite K by lia. unfold tree_encode. rewrite P. cbn [option_map]. f_equal. apply with_context_probs, I.
      + rewrite at_index_nth by (unfold EOB_token; lia). f_equal. rewrite K by (unfold EOB_token; lia).
        change (tree_encode coef_tree (context_probs tbl type band ctx) EOB_token) with (Some [(false, nth (Z.to_nat 0) (context_probs tbl type band ctx) 0)]).
        cbv iota. rewrite bits_cost_cons. rewrite context_probs_nth by lia. cbn [bits_cost fold_right]. lia. }
  unfold fill_token_costs.
  destruct (omap_at (fun type => omap (fun band => omap (fun ctx =>
    let? e := entry old type band ctx in tree_costs e (context_probs tbl type band ctx) coef_tree (costs_start type band ctx)) (zseq 3)) (zseq 8)) 4) as (t & E & K).
  { intros type Ht. edestruct (omap_at (fun band => omap (fun ctx =>
      let? e := entry old type band ctx in tree_costs e (context_probs tbl type band ctx) coef_tree (costs_start type band ctx)) (zseq 3)) 8) as (t & E & _); [|eauto].
    intros band Hb. edestruct (omap_at (fun ctx =>
      let? e := entry old type band ctx in tree_costs e (context_probs tbl type band ctx) coef_tree (costs_start type band ctx)) 3) as (t & E & _); [|eauto].
    intros ctx Hc. destruct (One type band ctx Ht Hb Hc) as (e & Ee & _). eauto. }
  exists t. split; [exact E|].
  assert (At : forall type band ctx, 0 <= type < 4 -> 0 <= band < 8 -> 0 <= ctx < 3 ->
    entry t type band ctx = (let? o := entry old type band ctx in tree_costs o (context_probs tbl type band ctx) coef_tree (costs_start type band ctx))).
  { intros type band ctx Ht Hb Hc. destruct (K type Ht) as (tb & Eb & Nb). cbn beta in Eb.
    unfold entry at 1. rewrite at_index_error by lia. rewrite Nb. cbn [obind]. rewrite at_index_error by lia.
    edestruct (omap_at (fun band => omap (fun ctx =>
      let? e := entry old type band ctx in tree_costs e (context_probs tbl type band ctx) coef_tree (costs_start type band ctx)) (zseq 3)) 8) as (tb' & E' & K').
    { intros band' Hb'. edestruct (omap_at (fun ctx =>
        let? e := entry old type band' ctx in tree_costs e (context_probs tbl type band' ctx) coef_tree (costs_start type band' ctx)) 3) as (tc & Ec & _); [|eauto].
      intros ctx' Hc'. destruct (One type band' ctx' Ht Hb' Hc') as (e & Ee & _). eauto. }
    rewrite Eb in E'. apply some_eq in E'. subst tb'. destruct (K' band Hb) as (tc & Ec & Nc). cbn beta in Ec. rewrite Nc. cbn [obind]. rewrite at_index_error by lia.
    edestruct (omap_at (fun ctx =>
      let? e := entry old type band ctx in tree_costs e (context_probs tbl type band ctx) coef_tree (costs_start type band ctx)) 3) as (tc' & Ec' & Kc).
    { intros ctx' Hc'. destruct (One type band ctx' Ht Hb Hc') as (e & Ee & _). eauto. }
    rewrite Ec in Ec'. apply some_eq in Ec'. subst tc'. destruct (Kc ctx Hc) as (e & Ee & Ne). cbn beta in Ee. rewrite Ne, <- Ee. reflexivity. }
  split.
  - intros type band ctx Ht Hb Hc. rewrite At by assumption. destruct (One type band ctx Ht Hb Hc) as (e & Ee & L & _). eauto.
  - intros type band ctx Ht Hb Hc. rewrite At by assumption. destruct (One type band ctx Ht Hb Hc) as (e & Ee & L & A & B). eauto.
Qed.

(** The cost of the tokens of a block from index [i] on, in the zigzag order;
    [len]: one more than the index of the last coefficient that is not zero.
    [n] = 16 - [i]. *)
Fixpoint tokens_cost (tc : Z -> Z -> Z -> Z) (vc : Z -> Z) (len : nat) (coefs : list Z) (n i : nat) (ctx : Z) : Z :=
  match n with
  | O => 0
  | S n' =>
      if (len <=? i)%nat then tc (band_of i) ctx EOB_token
      else
        let c := nth (zz i) coefs 0 in
        tc (band_of i) ctx (token_for_coeff c) + vc c + tokens_cost tc vc len coefs n' (S i) (prev_token_class (token_for_coeff c))
  end.

(** Costs that agree with the probabilities. *)
Definition true_costs (prob : Z -> Z -> Z -> Z) (type : Z) (tc : Z -> Z -> Z -> Z) (vc : Z -> Z) : Prop :=
  (forall band ctx token, 0 <= band < 8 -> 0 <= ctx < 3 -> 0 <= token < 11 ->
     tc band ctx token = bits_cost (token_bits (prob band ctx) (skips type band ctx) token)) /\
  (forall band ctx, 0 <= band < 8 -> 0 <= ctx < 3 -> skips type band ctx = false -> tc band ctx EOB_token = cost_bit (prob band ctx 0) false) /\
  (forall c, -2048 <= c <= 2047 -> vc c = bits_cost (extra_events c)).

Lemma band_range i : (i < 16)%nat -> 0 <= band_of i < 8.
Proof. intros H. do 16 (destruct i as [|i]; [vm_compute; split; [discriminate|reflexivity]|]). lia. Qed.
Lemma band_skips type i : (first_index type < i < 16)%nat -> skips type (band_of i) 0 = true.
Proof.
  intros H. unfold skips, first_index, Y_after_Y2 in *. change (0 =? 0) with true. cbn [andb].
  destruct (type =? 0) in H |- *; do 16 (destruct i as [|i]; [try lia; try reflexivity|]); lia.
Qed.
Lemma skips_nonzero type band ctx : ctx <> 0 -> skips type band ctx = false.
Proof. intros H. unfold skips. replace (ctx =? 0) with false by lia. reflexivity. Qed.
Lemma first_skips type ctx : skips type (band_of (first_index type)) ctx = false.
Proof. unfold skips, first_index, Y_after_Y2. destruct (type =? 0); [change (band_of 1) with 1|change (band_of 0) with 0]; apply andb_false_r. Qed.

Lemma token_range c : 0 <= token_for_coeff c < 11.
Proof. unfold token_for_coeff. repeat match goal with |- context [if ?b then _ else _] => destruct b eqn:? end; lia. Qed.
Lemma class_of_token c : (c = 0 -> prev_token_class (token_for_coeff c) = 0) /\ (c <> 0 -> 1 <= prev_token_class (token_for_coeff c) <= 2).
Proof.
  split; [intros ->; reflexivity|]. intros H. unfold token_for_coeff.
  repeat match goal with |- context [if ?b then _ else _] => destruct b eqn:? end; try (vm_compute; split; discriminate).
  assert (C : Z.abs c = 1 \/ Z.abs c = 2 \/ Z.abs c = 3 \/ Z.abs c = 4) by lia.
  destruct C as [C|[C|[C|C]]]; rewrite C; vm_compute; split; discriminate.
Qed.

Lemma tokens_cost_events prob type tc vc coefs len : true_costs prob type tc vc -> (len <= 16)%nat ->
  Forall (fun c => -2048 <= c <= 2047) coefs ->
  forall n i ctx lwz evs ctx',
  (i + n = 16)%nat -> (first_index type <= i <= Nat.max len (first_index type))%nat -> 0 <= ctx < 3 ->
  ((i < 16)%nat -> lwz = skips type (band_of i) ctx) ->
  ser_loop prob coefs (len - i) i ctx lwz = Some (evs, ctx', false) ->
  tokens_cost tc vc len coefs n i ctx =
  bits_cost (evs ++ (if (len <? 16)%nat then [(false, prob (band_of (Nat.max len (first_index type))) ctx' 0)] else [])).
Proof.
  intros (TC & TE & TV) Hlen Hco. assert (Hf : (first_index type <= 1)%nat) by (unfold first_index; destruct (_ =? _); lia).
  induction n as [|n IH]; intros i ctx lwz evs ctx' Hi Hb Hctx Hl E; cbn [tokens_cost].
  - replace (len - i)%nat with 0%nat in E by lia. cbn [ser_loop] in E. apply some_eq in E. apply pair_equal_spec in E. destruct E as [E _].
    apply pair_equal_spec in E. destruct E as [<- _]. replace (len <? 16)%nat with false by lia. reflexivity.
  - destruct (len <=? i)%nat eqn:El.
    + replace (len - i)%nat with 0%nat in E by lia. cbn [ser_loop] in E. apply some_eq in E. apply pair_equal_spec in E. destruct E as [E ->].
      apply pair_equal_spec in E. destruct E as [<- <-]. replace (len <? 16)%nat with true by lia. cbn [app]. rewrite bits_cost_cons. cbn [bits_cost fold_right].
      replace (Nat.max len (first_index type)) with i by lia. rewrite TE; [lia|apply band_range; lia|exact Hctx|symmetry; apply Hl; lia].
    + replace (len - i)%nat with (S (len - S i)) in E by lia. cbn [ser_loop] in E.
      set (c := nth (zz i) coefs 0) in *. set (p := prob (band_of i) ctx) in *.
      assert (Hc : -2048 <= c <= 2047).
      { unfold c. destruct (nth_in_or_default (zz i) coefs 0) as [I| ->]; [|lia]. exact (proj1 (Forall_forall _ _) Hco _ I). }
      cbv zeta. rewrite TC; [|apply band_range; lia|exact Hctx|apply token_range]. rewrite TV by exact Hc. fold p.
      rewrite <- Hl by lia.
      assert (Hw : bits_cost (token_bits p lwz (token_for_coeff c)) = bits_cost (if lwz then [] else [(true, p 0)]) + bits_cost (token_bits p true (token_for_coeff c))).
      { destruct lwz; [cbn [bits_cost fold_right]; lia|]. rewrite token_bits_whole by apply token_range. rewrite !bits_cost_cons. cbn [bits_cost fold_right]. lia. }
      rewrite Hw. destruct (class_of_token c) as [K0 K1].
      destruct (c =? 0) eqn:Ec.
      * destruct (ser_loop prob coefs (len - S i) (S i) 0 true) as [[[evs' cx] lw]|] eqn:E'; [|discriminate].
        apply some_eq in E. apply pair_equal_spec in E. destruct E as [E ->]. apply pair_equal_spec in E. destruct E as [<- <-].
        rewrite K0 by lia. rewrite (IH (S i) 0 true evs' cx); [|lia|lia|lia| |exact E'].
        2: { intros Hs. symmetry. apply band_skips. lia. }
        rewrite !bits_cost_app. replace c with 0 by lia. change (token_bits p true (token_for_coeff 0)) with [(false, p 1)].
        change (extra_events 0) with (@nil event). cbn [bits_cost fold_right]. unfold event in *. ring.
      * destruct (value_events p c) as [[ve cx1]|] eqn:Ev; [|discriminate].
        destruct (value_events_cost p c ve cx1 Hc ltac:(lia) Ev) as [V ->]. specialize (K1 ltac:(lia)).
        destruct (ser_loop prob coefs (len - S i) (S i) (prev_token_class (token_for_coeff c)) false) as [[[evs' cx] lw]|] eqn:E'; [|discriminate].
        apply some_eq in E. apply pair_equal_spec in E. destruct E as [E ->]. apply pair_equal_spec in E. destruct E as [<- <-].
        rewrite (IH (S i) _ false evs' cx); [|lia|lia|lia| |exact E'].
        2: { intros Hs. symmetry. apply skips_nonzero. lia. }
        rewrite !bits_cost_app. rewrite bits_cost_cons. cbn [bits_cost fold_right]. unfold event in *.
        generalize dependent (bits_cost (if lwz then [] else [(true, p 0)])). intros. clear - V. lia.
Qed.

Lemma tokens_cost_serialize prob type tc vc coefs ctx evs : true_costs prob type tc vc ->
  Forall (fun c => -2048 <= c <= 2047) coefs -> 0 <= ctx < 3 -> serialize_tokens prob type ctx coefs = Some evs ->
  tokens_cost tc vc (coded_length type coefs) coefs (16 - first_index type) (first_index type) ctx = bits_cost evs.
Proof.
  intros T Hco Hctx E. unfold serialize_tokens in E. destruct (coded_length_bounds type coefs) as (L & _ & _).
  assert (Hf : (first_index type <= 1)%nat) by (unfold first_index; destruct (_ =? _); lia).
  destruct (ser_loop _ _ _ _ _ _) as [[[e cx] lwz]|] eqn:Es; [|discriminate]. destruct lwz; [discriminate|].
  rewrite (tokens_cost_events prob type tc vc coefs (coded_length type coefs) T L Hco (16 - first_index type) (first_index type) ctx false e cx);
    [|lia|lia|exact Hctx|intros _; symmetry; apply first_skips|exact Es].
  destruct (coded_length type coefs <? 16)%nat; apply some_eq in E; subst evs; [reflexivity|]. rewrite app_nil_r. reflexivity.
Qed.

Lemma token_lengths : forallb (fun v => (length (token_path v) <=? 11)%nat) (zseq 12) = true.
Proof. vm_compute. reflexivity. Qed.
Lemma token_bits_range p s v : 0 <= v < 11 -> 0 <= bits_cost (token_bits p s v) <= 22517.
Proof.
  intros H. pose proof (bits_cost_range (token_bits p s v)) as R.
  pose proof (proj1 (forallb_forall _ _) token_lengths v (in_zseq v 12 ltac:(lia))) as L. cbn beta in L.
  assert (zlen (token_bits p s v) <= 11); [|lia]. unfold zlen, token_bits. rewrite map_length.
  destruct s; [|lia]. destruct (token_path v); cbn [tl length] in *; lia.
Qed.
Lemma td_bit_events_length probs x : length (td_bit_events probs x) = length probs.
Proof. induction probs as [|p l IH]; cbn [td_bit_events length]; [reflexivity|]. rewrite IH. reflexivity. Qed.
Lemma extra_events_range c : 0 <= bits_cost (extra_events c) <= 24564.
Proof.
  pose proof (bits_cost_range (extra_events c)) as R. assert (zlen (extra_events c) <= 12); [|lia].
  unfold zlen, extra_events, td_events. rewrite app_length.
  assert (A : (length (if (Z.abs c =? 0)%Z then [] else [((c <? 0)%Z, 128%Z)]) <= 1)%nat) by (destruct (Z.abs c =? 0); cbn [length]; lia).
  match goal with |- context [(length ?l + _)%nat] => assert (B : (length l <= 11)%nat); [|lia] end.
  repeat match goal with |- context [if ?b then _ else _] => destruct b end; rewrite ?td_bit_events_length; cbn; lia.
Qed.

Lemma walk_keep t : forall i choice c r, trellis_walk t i choice c = Some r -> length c = 16%nat ->
  length r = 16%nat /\ forall k, (k < i)%nat -> (k < 16)%nat -> nth (zz k) r 0 = nth (zz k) c 0.
Proof.
  induction t as [|p t IH]; intros i choice c r E L; cbn [trellis_walk] in E.
  - destruct (16 <=? i)%nat; [|discriminate]. apply some_eq in E. subst. auto.
  - destruct (16 <=? i)%nat eqn:E16; [apply some_eq in E; subst; auto|]. destruct choice as [b|]; [|discriminate].
    destruct (n_token (pick p b) =? EOB_token).
    + apply some_eq in E. subst r. destruct (clear_from_spec i c L ltac:(lia)) as [A B]. split; [exact A|].
      intros k Hk H16. rewrite B by exact H16. replace (k <? i)%nat with true by lia. reflexivity.
    + destruct (IH _ _ _ _ E) as [A B]; [rewrite list_set_length; exact L|]. split; [exact A|].
      intros k Hk H16. rewrite B by lia. rewrite nth_list_set by (rewrite L; apply zz_lt; lia).
      destruct (zz k =? zz i)%nat eqn:Ez; [|reflexivity]. apply Nat.eqb_eq in Ez. apply zz_inj in Ez; lia.
Qed.

(** [len] is one more than the index of the last coefficient that is not
    zero, or 0. *)
Definition coded_to (coefs : list Z) (len : nat) : Prop :=
  (len <= 16)%nat /\ (forall k, (len <= k < 16)%nat -> nth (zz k) coefs 0 = 0) /\ (len = 0%nat \/ nth (zz (len - 1)) coefs 0 <> 0).

Definition rate_ok (cs : costs) (type : Z) (first : nat) (nd : node) (r : list Z) : Prop :=
  0 <= n_rate nd <= (16 - Z.of_nat first) * 60000 /\
  ((n_token nd = EOB_token /\ n_rate nd = 0 /\ forall k, (first <= k < 16)%nat -> nth (zz k) r 0 = 0) \/
   ((first < 16)%nat /\ n_token nd = token_for_coeff (nth (zz first) r 0) /\ exists k, (first <= k < 16)%nat /\ nth (zz k) r 0 <> 0)) /\
  (forall len ctx, (first < 16)%nat -> coded_to r len -> 0 <= ctx < 3 ->
     n_rate nd + token_cost cs type (band_of first) ctx (n_token nd) =
     tokens_cost (token_cost cs type) (value_cost cs) len r (16 - first) first ctx).

Lemma rate_ok_end cs type first nd r : (first <= 16)%nat -> n_token nd = EOB_token -> n_rate nd = 0 ->
  (forall k, (first <= k < 16)%nat -> nth (zz k) r 0 = 0) -> rate_ok cs type first nd r.
Proof.
  intros Hf Et Er Z0. split; [lia|]. split; [left; auto|]. intros len ctx H16 (L1 & L2 & L3) Hc. rewrite Er, Et.
  replace (16 - first)%nat with (S (15 - first)) by lia. cbn [tokens_cost].
  assert (len <= first)%nat.
  { destruct L3 as [L3|L3]; [lia|]. destruct (Nat.le_gt_cases len first) as [G|G]; [exact G|]. exfalso. apply L3. apply Z0. lia. }
  replace (len <=? first)%nat with true by lia. lia.
Qed.

Lemma search_rates cs prob type dc ac coefs : true_costs prob type (token_cost cs type) (value_cost cs) ->
  forall n first t, trellis_build cs type dc ac coefs first n = Some t -> (first + n <= 16)%nat ->
  exists p rest, t = p :: rest /\
    forall choice c r, length c = 16%nat -> trellis_walk t first (Some choice) c = Some r -> rate_ok cs type first (pick p choice) r.
Proof.
  intros (TC & TE & TV). induction n as [|n IH]; intros first t E Hn; cbn [trellis_build] in E.
  - apply some_eq in E. subst t. eexists _, _. split; [reflexivity|]. intros choice c r Lc W. cbn [trellis_walk] in W.
    replace (pick (sentinel, sentinel) choice) with sentinel in * by (destruct choice; reflexivity).
    apply rate_ok_end; [lia|reflexivity|reflexivity|]. intros k Hk. replace (16 <=? first)%nat with false in W by lia.
    change (n_token sentinel =? EOB_token) with true in W. cbv iota in W. apply some_eq in W. subst r.
    destruct (clear_from_spec first c Lc ltac:(lia)) as [_ B]. rewrite B by lia. replace (k <? first)%nat with false by lia. reflexivity.
  - destruct (trellis_build cs type dc ac coefs (S first) n) as [t'|] eqn:E'; cbn [obind] in E; [|discriminate].
    destruct (IH (S first) t' E' ltac:(lia)) as (next & rest & -> & K).
    destruct (trellis_levels cs type dc ac coefs first next) as [p|] eqn:El; cbn [obind] in E; [|discriminate].
    apply some_eq in E. subst t. exists p, (next :: rest). split; [reflexivity|]. intros choice c r Lc W.
    assert (N : exists f orig cand, trellis_node cs type first f orig cand next = Some (pick p choice)).
    { unfold trellis_levels in El. destruct (_ =? 0) in El; [discriminate|].
      destruct (trellis_node _ _ _ _ _ _ _) as [n0|] eqn:E0 in El; cbn [obind] in El; [|discriminate].
      destruct (_ =? 0) in El; cbn [obind] in El.
      - apply some_eq in El. subst p. destruct choice; eexists _, _, _; exact E0.
      - destruct (trellis_node _ _ _ _ _ (towards_zero _) _) as [n1|] eqn:E1 in El; cbn [obind] in El; [|discriminate].
        apply some_eq in El. subst p. destruct choice; eexists _, _, _; [exact E1|exact E0]. }
    destruct N as (f & orig & cand & N). cbn [trellis_walk] in W. generalize dependent (pick p choice). clear El p choice.
    intros nd W N. replace (16 <=? first)%nat with false in W by lia.
    unfold trellis_node in N. destruct (i32 (cand * f)) as [pr|] in N; cbn [obind] in N; [|discriminate].
    destruct (i32 (orig - pr)) as [df|] in N; cbn [obind] in N; [|discriminate]. cbv zeta in N.
    destruct (cheaper _ _) as [best|] in N; cbn [obind] in N; [|discriminate].
    destruct (negb (cand =? 0) || negb (n_token (pick next best) =? EOB_token)) eqn:Ek in N.
    2: { apply some_eq in N. subst nd. cbn [n_token] in W. change (EOB_token =? EOB_token) with true in W. cbv iota in W. apply some_eq in W. subst r.
         apply rate_ok_end; [lia|reflexivity|reflexivity|]. intros k Hk.
         destruct (clear_from_spec first c Lc ltac:(lia)) as [_ B]. rewrite B by lia. replace (k <? first)%nat with false by lia. reflexivity. }
    unfold coeff_base_cost in N. destruct ((-2048 <=? cand) && (cand <=? 2047)) eqn:Er in N; cbn [obind] in N; [|discriminate].
    assert (Hcand : -2048 <= cand <= 2047) by (clear - Er; lia). clear Er.
    apply some_eq in N. subst nd. cbn [n_token n_next n_coeff] in W.
    replace (token_for_coeff cand =? EOB_token) with false in W by (pose proof (token_for_coeff_not_eob cand); lia).
    assert (L' : length (list_set c (zz first) cand) = 16%nat) by (rewrite list_set_length; exact Lc).
    destruct (K best _ r L' W) as (B & A & T). destruct (walk_keep (next :: rest) (S first) (Some best) _ r W L') as [Lr Keep].
    assert (Rf : nth (zz first) r 0 = cand).
    { rewrite Keep by lia. rewrite nth_list_set by (rewrite Lc; apply zz_lt; lia). rewrite Nat.eqb_refl. reflexivity. }
    set (nb := pick next best) in *.
    assert (Some_nonzero : exists k, (first <= k < 16)%nat /\ nth (zz k) r 0 <> 0).
    { destruct (Z.eq_dec cand 0) as [->|Nz]; [|exists first; split; [lia|congruence]].
      destruct A as [(A1 & _)|(_ & _ & k & Hk & Nk)]; [|exists k; split; [lia|exact Nk]].
      exfalso. rewrite A1 in Ek. change (EOB_token =? EOB_token) with true in Ek. discriminate. }
    pose proof (class_of_token cand) as [C0 C1].
    assert (Rt : (first < 15)%nat -> 0 <= token_cost cs type (band_of (S first)) (prev_token_class (token_for_coeff cand)) (n_token nb) <= 22517).
    { intros H15. destruct A as [(A1 & _)|(_ & A1 & _)].
      - rewrite A1. rewrite A1 in Ek. change (EOB_token =? EOB_token) with true in Ek. cbn [negb] in Ek. rewrite orb_false_r in Ek.
        specialize (C1 ltac:(clear - Ek; lia)). rewrite TE; [|apply band_range; lia|lia|apply skips_nonzero; lia].
        match goal with |- context [cost_bit ?p ?b] => pose proof (cost_bit_range p b) end. lia.
      - rewrite A1. rewrite TC; [|apply band_range; lia| |apply token_range]; [apply token_bits_range, token_range|].
        destruct (Z.eq_dec cand 0) as [Ez|Nz]; [rewrite (C0 Ez); lia|specialize (C1 Nz); lia]. }
    pose proof (extra_events_range cand) as Rv. rewrite <- TV in Rv by exact Hcand.
    set (rate := if (first <? 15)%nat then wrap 32 (n_rate nb + token_cost cs type (band_of (S first)) (prev_token_class (token_for_coeff cand)) (n_token nb)) else n_rate nb).
    assert (Rate : 0 <= rate <= (15 - Z.of_nat first) * 60000 + 22517 /\
      forall len, coded_to r len -> rate = tokens_cost (token_cost cs type) (value_cost cs) len r (15 - first) (S first) (prev_token_class (token_for_coeff cand))).
    { unfold rate. destruct (first <? 15)%nat eqn:E15.
      - specialize (Rt ltac:(lia)). unfold wrap. rewrite Z.mod_small by (change (2 ^ 32) with 4294967296; lia). split; [lia|].
        intros len Hl. replace (15 - first)%nat with (16 - S first)%nat by lia. apply T; [lia|exact Hl|].
        destruct (Z.eq_dec cand 0) as [Ez|Nz]; [rewrite (C0 Ez); lia|specialize (C1 Nz); lia].
      - destruct A as [(_ & A2 & _)|(A1 & _)]; [|lia]. rewrite A2. split; [lia|]. intros len Hl. replace (15 - first)%nat with 0%nat by lia. reflexivity. }
    destruct Rate as [Rr Rate]. fold rate. clearbody rate.
    assert (Ew : wrap 32 (rate + value_cost cs cand) = rate + value_cost cs cand).
    { unfold wrap. apply Z.mod_small. change (2 ^ 32) with 4294967296. lia. }
    split; [cbn [n_rate]; rewrite Ew; lia|]. split; [right; cbn [n_token]; rewrite Rf; split; [lia|split; [reflexivity|exact Some_nonzero]]|].
    intros len ctx H16 Hl Hc. cbn [n_rate n_token]. rewrite Ew. rewrite (Rate len Hl).
    replace (16 - first)%nat with (S (15 - first)) by lia. cbn [tokens_cost].
    assert (first < len)%nat.
    { destruct Hl as (L1 & L2 & L3). destruct Some_nonzero as (k & Hk & Nk). destruct (Nat.le_gt_cases len k) as [G|G]; [|lia]. exfalso. apply Nk, L2. lia. }
    replace (len <=? first)%nat with false by lia. rewrite Rf. ring.
Qed.

Lemma coded_length_coded type coefs : (type = Y_after_Y2 -> nth 0 coefs 0 = 0) -> coded_to coefs (coded_length type coefs).
Proof.
  intros H0. unfold coded_length.
  assert (G : forall n i a, (i + n = 16)%nat -> (a <= i)%nat -> (forall k, (a <= k < i)%nat -> nth (zz k) coefs 0 = 0) ->
    (a = 0%nat \/ nth (zz (a - 1)) coefs 0 <> 0) -> coded_to coefs (coded_length_from n i coefs a)).
  { induction n as [|n IH]; intros i a Hi Ha Z0 Hl; cbn [coded_length_from].
    - split; [lia|]. split; [intros k Hk; apply Z0; lia|exact Hl].
    - apply IH; [lia| | |].
      + destruct (_ =? 0); lia.
      + intros k Hk. destruct (nth (zz i) coefs 0 =? 0) eqn:E; [|lia]. destruct (Nat.eq_dec k i) as [->|Nk]; [lia|apply Z0; lia].
      + destruct (nth (zz i) coefs 0 =? 0) eqn:E; [exact Hl|]. right. replace (S i - 1)%nat with i by lia. lia. }
  unfold first_index. destruct (type =? Y_after_Y2) eqn:Et.
  - apply G; [lia|lia| |left; reflexivity]. intros k Hk. replace k with 0%nat by lia. apply H0. lia.
  - apply G; [lia|lia| |left; reflexivity]. intros k Hk. lia.
Qed.

(** * Theorems about blocks *)

(** The tables of token costs after fill_token_costs, whatever they held
    before. *)
Definition filled (tbl : list Z) (t : token_table) : Prop := exists old, table_sized old /\ fill_token_costs old tbl = Some t.

Lemma filled_true tbl t rm dm type : filled tbl t -> 0 <= type < 4 ->
  true_costs (coeff_prob tbl type) type (token_cost (table_costs t rm dm) type) (value_cost (table_costs t rm dm)).
Proof.
  intros (old & So & E) Ht. destruct (fill_spec old tbl So) as (t' & E' & S' & K). rewrite E in E'. apply some_eq in E'. subst t'.
  cbn [token_cost value_cost table_costs]. split; [|split].
  - intros band ctx token Hb Hc Hk. destruct (K type band ctx Ht Hb Hc) as (e & Ee & A & _). unfold token_cost_at. rewrite Ee. cbn [obind]. rewrite A by exact Hk. reflexivity.
  - intros band ctx Hb Hc Hs. destruct (K type band ctx Ht Hb Hc) as (e & Ee & _ & B). unfold token_cost_at. rewrite Ee. cbn [obind]. rewrite B, Hs. reflexivity.
  - intros c Hc. apply value_cost_spec, Hc.
Qed.

(** The table can always be filled. *)
Theorem C65_fill :
  forall old tbl, table_sized old -> exists t, fill_token_costs old tbl = Some t /\ table_sized t /\ filled tbl t.
Proof.
  intros old tbl H. destruct (fill_spec old tbl H) as (t & E & S' & _). exists t. split; [exact E|]. split; [exact S'|]. exists old. auto.
Qed.

Lemma filled_read tbl t type band ctx token : filled tbl t -> 0 <= type < 4 -> 0 <= band < 8 -> 0 <= ctx < 3 -> 0 <= token < 12 ->
  token_cost_at t type band ctx token = Some (token_cost (table_costs t 0 0) type band ctx token).
Proof.
  intros (old & So & E) Ht Hb Hc Hk. destruct (fill_spec old tbl So) as (t' & E' & S' & _). rewrite E in E'. apply some_eq in E'. subst t'.
  cbn [token_cost table_costs]. unfold token_cost_at. destruct (S' type band ctx Ht Hb Hc) as (e & -> & L). cbn [obind].
  rewrite at_index_nth by lia. reflexivity.
Qed.

Lemma wrap32_plus a b : wrap 32 (wrap 32 a + b) = wrap 32 (a + b).
Proof. unfold wrap. apply Z.add_mod_idemp_l. lia. Qed.

Lemma block_loop tbl t type coefs len : filled tbl t -> 0 <= type < 4 -> (len <= 16)%nat -> Forall (fun c => -2048 <= c <= 2047) coefs ->
  forall n i ctx cost, (i + n = 16)%nat -> (first_index type <= i <= Nat.max len (first_index type))%nat -> 0 <= ctx < 3 ->
  exists ctx' cost', block_cost_loop t type coefs (len - i) i ctx cost = Some (ctx', cost') /\ 0 <= ctx' < 3 /\ (wrap 32 cost = cost -> wrap 32 cost' = cost') /\
    let all := wrap 32 (cost + tokens_cost (token_cost (table_costs t 0 0) type) (value_cost (table_costs t 0 0)) len coefs n i ctx) in
    if (len <? 16)%nat
    then wrap 32 (cost' + token_cost (table_costs t 0 0) type (band_of (Nat.max len (first_index type))) ctx' EOB_token) = all
    else wrap 32 cost' = all.
Proof.
  intros Hf Ht Hlen Hco. assert (Hi1 : (first_index type <= 1)%nat) by (unfold first_index; destruct (_ =? _); lia).
  induction n as [|n IH]; intros i ctx cost Hi Hb Hc; cbn [tokens_cost].
  - replace (len - i)%nat with 0%nat by lia. eexists _, _. split; [reflexivity|]. split; [exact Hc|]. split; [auto|]. cbv zeta.
    replace (len <? 16)%nat with false by lia. rewrite Z.add_0_r. reflexivity.
  - destruct (len <=? i)%nat eqn:El.
    + replace (len - i)%nat with 0%nat by lia. eexists _, _. split; [reflexivity|]. split; [exact Hc|]. split; [auto|]. cbv zeta.
      replace (len <? 16)%nat with true by lia. replace (Nat.max len (first_index type)) with i by lia. reflexivity.
    + replace (len - i)%nat with (S (len - S i)) by lia. cbn [block_cost_loop]. cbv zeta. set (c := nth (zz i) coefs 0).
      assert (Hr : -2048 <= c <= 2047).
      { unfold c. destruct (nth_in_or_default (zz i) coefs 0) as [I| ->]; [|lia]. exact (proj1 (Forall_forall _ _) Hco _ I). }
      pose proof (token_range c). rewrite (filled_read tbl) by (try assumption; try apply band_range; lia). cbn [obind].
      replace ((-2048 <=? c) && (c <=? 2047)) with true by lia.
      rewrite at_index_nth by (rewrite value_costs_length; lia). cbn [obind].
      destruct (class_of_token c) as [C0 C1].
      assert (Hp : 0 <= prev_token_class (token_for_coeff c) < 3).
      { destruct (Z.eq_dec c 0) as [Ez|Nz]; [rewrite (C0 Ez); lia|specialize (C1 Nz); lia]. }
      match goal with |- context [block_cost_loop _ _ _ _ _ ?x ?y] => destruct (IH (S i) x y ltac:(lia) ltac:(lia) Hp) as (cx & ct & E & R & Wr & K) end.
      exists cx, ct. split; [exact E|]. split; [exact R|]. split; [intros _; apply Wr; unfold wrap; apply Z.mod_mod; lia|]. cbv zeta in K. rewrite wrap32_plus in K.
      cbn [value_cost table_costs] in *. rewrite !Z.add_assoc. rewrite ?Z.add_assoc in K. exact K.
Qed.

Lemma tokens_cost_range prob type tc vc len coefs : true_costs prob type tc vc -> Forall (fun c => -2048 <= c <= 2047) coefs -> coded_to coefs len ->
  forall n i ctx, (i + n = 16)%nat -> (first_index type <= i)%nat -> 0 <= ctx < 3 -> ((i < 16)%nat -> (len <= i)%nat -> skips type (band_of i) ctx = false) ->
  0 <= tokens_cost tc vc len coefs n i ctx <= Z.of_nat n * 60000.
Proof.
  intros (TC & TE & TV) Hco (L1 & L2 & L3). induction n as [|n IH]; intros i ctx Hi Hf Hc Hs; cbn [tokens_cost]; [lia|].
  destruct (len <=? i)%nat eqn:El.
  - rewrite TE; [|apply band_range; lia|exact Hc|apply Hs; lia]. match goal with |- context [cost_bit ?p ?b] => pose proof (cost_bit_range p b) end. lia.
  - cbv zeta. set (c := nth (zz i) coefs 0).
    assert (Hr : -2048 <= c <= 2047).
    { unfold c. destruct (nth_in_or_default (zz i) coefs 0) as [I| ->]; [|lia]. exact (proj1 (Forall_forall _ _) Hco _ I). }
    pose proof (token_range c) as Rt. rewrite TC by (try assumption; apply band_range; lia). rewrite TV by exact Hr.
    pose proof (token_bits_range (prob (band_of i) ctx) (skips type (band_of i) ctx) _ Rt). pose proof (extra_events_range c).
    destruct (class_of_token c) as [C0 C1].
    assert (Hp : 0 <= prev_token_class (token_for_coeff c) < 3).
    { destruct (Z.eq_dec c 0) as [Ez|Nz]; [rewrite (C0 Ez); lia|specialize (C1 Nz); lia]. }
    specialize (IH (S i) (prev_token_class (token_for_coeff c)) ltac:(lia) ltac:(lia) Hp).
    assert (0 <= tokens_cost tc vc len coefs n (S i) (prev_token_class (token_for_coeff c)) <= Z.of_nat n * 60000); [|lia].
    apply IH. intros _ Hl. apply skips_nonzero. apply not_eq_sym. assert (c <> 0); [|specialize (C1 H1); lia].
    unfold c. destruct L3 as [L3|L3]; [lia|]. replace i with (len - 1)%nat by lia. exact L3.
Qed.

(** The estimate for a block is the cost of the bits that the block is written
    with; entries of the table that are not set are not used. *)
Theorem C65_block :
  forall tbl t type ctx coefs evs, filled tbl t -> 0 <= type < 4 -> 0 <= ctx < 3 -> Forall (fun c => -2048 <= c <= 2047) coefs ->
  (type = Y_after_Y2 -> nth 0 coefs 0 = 0) ->
  serialize_tokens (coeff_prob tbl type) type ctx coefs = Some evs ->
  block_cost t type ctx coefs = Some (bits_cost evs).
Proof.
  intros tbl t type ctx coefs evs Hf Ht Hc Hco H0 E.
  pose proof (filled_true tbl t 0 0 type Hf Ht) as TT.
  rewrite <- (tokens_cost_serialize _ _ _ _ _ _ _ TT Hco Hc E). clear E.
  pose proof (coded_length_coded type coefs H0) as Cl. pose proof Cl as (L & _).
  assert (Hi1 : (first_index type <= 1)%nat) by (unfold first_index; destruct (_ =? _); lia).
  pose proof (tokens_cost_range _ _ _ _ _ _ TT Hco Cl (16 - first_index type) (first_index type) ctx ltac:(lia) ltac:(lia) Hc (fun _ _ => first_skips type ctx)) as R.
  unfold block_cost. set (len := coded_length type coefs) in *.
  destruct (block_loop tbl t type coefs len Hf Ht L Hco (16 - first_index type) (first_index type) ctx 0 ltac:(lia) ltac:(lia) Hc) as (cx & ct & -> & Hcx & Wr & K).
  cbn [obind]. cbv zeta in K. rewrite Z.add_0_l in K.
  assert (W : forall x, 0 <= x <= Z.of_nat (16 - first_index type) * 60000 -> wrap 32 x = x).
  { intros x Hx. unfold wrap. apply Z.mod_small. change (2 ^ 32) with 4294967296. lia. }
  rewrite (W _ R) in K. destruct (len <? 16)%nat eqn:E16.
  - rewrite (filled_read tbl); [|assumption|assumption|apply band_range; lia|exact Hcx|unfold EOB_token; lia]. cbn [obind]. rewrite K. reflexivity.
  - f_equal. rewrite <- K. symmetry. apply Wr. reflexivity.
Qed.

(** The search for a cheaper quantisation (ResidueModel.v): the rate it has
    computed for the path it follows is the cost of the bits that the
    resulting block is written with. *)
Theorem C65_search :
  forall tbl t rm dm type ctx dc ac coefs p rest choice r evs,
  filled tbl t -> 0 <= type < 4 -> 0 <= ctx < 3 -> length coefs = 16%nat -> (type = Y_after_Y2 -> nth 0 coefs 0 = 0) ->
  trellis_build (table_costs t rm dm) type dc ac coefs (first_index type) (coded_length type coefs - first_index type) = Some (p :: rest) ->
  trellis_walk (p :: rest) (first_index type) (Some choice) coefs = Some r ->
  Forall (fun c => -2048 <= c <= 2047) r ->
  serialize_tokens (coeff_prob tbl type) type ctx r = Some evs ->
  n_rate (pick p choice) + token_cost (table_costs t rm dm) type (band_of (first_index type)) ctx (n_token (pick p choice)) = bits_cost evs.
Proof.
  intros tbl t rm dm type ctx dc ac coefs p rest choice r evs Hf Ht Hc Lc H0 E W Hr Es.
  pose proof (filled_true tbl t rm dm type Hf Ht) as TT.
  assert (Hi1 : (first_index type <= 1)%nat) by (unfold first_index; destruct (_ =? _); lia).
  destruct (coded_length_bounds type coefs) as (L & _ & _).
  destruct (search_rates _ _ _ _ _ _ TT _ _ _ E ltac:(lia)) as (p' & rest' & Ep & K). injection Ep as <- <-.
  destruct (K choice coefs r Lc W) as (_ & _ & T).
  assert (H0' : type = Y_after_Y2 -> nth 0 r 0 = 0).
  { intros Ety. destruct (walk_keep _ _ _ _ _ W Lc) as [_ Keep]. specialize (Keep 0%nat). change (zz 0) with 0%nat in Keep.
    rewrite Keep; [exact (H0 Ety)|rewrite Ety; unfold first_index, Y_after_Y2; cbn; lia|lia]. }
  rewrite <- (tokens_cost_serialize _ _ _ _ _ _ _ TT Hr Hc Es). apply T; [lia|apply coded_length_coded, H0'|exact Hc].
Qed.

(** * The tables at work *)

Definition start_table := Eval vm_compute in fill_token_costs zero_table k_default_coeff_probs.
Definition default_table : token_table := match start_table with Some t => t | None => [] end.
Definition sized_everywhere (t : token_table) : bool :=
  forallb (fun type => forallb (fun band => forallb (fun ctx =>
    match entry t type band ctx with Some e => zlen e =? 12 | None => false end) (zseq 3)) (zseq 8)) (zseq 4).
Lemma sized_everywhere_spec t : sized_everywhere t = true -> table_sized t.
Proof.
  intros H type band ctx Ht Hb Hc. unfold sized_everywhere in H.
  pose proof (proj1 (forallb_forall _ _) H type (in_zseq _ _ Ht)) as H1. cbn beta in H1.
  pose proof (proj1 (forallb_forall _ _) H1 band (in_zseq _ _ Hb)) as H2. cbn beta in H2.
  pose proof (proj1 (forallb_forall _ _) H2 ctx (in_zseq _ _ Hc)) as H3. cbn beta in H3.
  destruct (entry t type band ctx) as [e|]; [|discriminate]. exists e. split; [reflexivity|lia].
Qed.
Lemma default_filled : filled k_default_coeff_probs default_table.
Proof.
  exists zero_table. split; [apply sized_everywhere_spec; vm_compute; reflexivity|].
  change (Some default_table) with start_table. vm_compute. reflexivity.
Qed.

(** A block, its levels as rounded, and its levels after the search. *)
Definition ex_coefs : list Z := [30; 12; 0; 0; 12; 0; 0; 0; 9; 0; 0; 0; 0; 0; 0; 0].
Definition ex_plain : list Z := [3; 1; 0; 0; 1; 0; 0; 0; 1; 0; 0; 0; 0; 0; 0; 0].
Definition ex_found : list Z := [3; 0; 0; 0; 0; 0; 0; 0; 0; 0; 0; 0; 0; 0; 0; 0].
Definition ex_costs : costs := table_costs default_table 40 1.

Example C65_block_example :
  exists evs, serialize_tokens (coeff_prob k_default_coeff_probs Y_without_Y2) Y_without_Y2 0 ex_plain = Some evs /\
    block_cost default_table Y_without_Y2 0 ex_plain = Some (bits_cost evs) /\ bits_cost evs = 4681.
Proof. eexists. split; [vm_compute; reflexivity|]. split; vm_compute; reflexivity. Qed.

Example C65_search_example :
  exists p rest choice evs, trellis_build ex_costs Y_without_Y2 8 8 ex_coefs 0 (coded_length Y_without_Y2 ex_coefs) = Some (p :: rest) /\
    trellis_walk (p :: rest) 0 (Some choice) ex_coefs = Some ex_found /\
    serialize_tokens (coeff_prob k_default_coeff_probs Y_without_Y2) Y_without_Y2 0 ex_found = Some evs /\
    n_rate (pick p choice) + token_cost ex_costs Y_without_Y2 0 0 (n_token (pick p choice)) = bits_cost evs /\ 0 < bits_cost evs.
Proof. eexists _, _, false, _. split; [vm_compute; reflexivity|]. split; [vm_compute; reflexivity|]. split; [vm_compute; reflexivity|]. vm_compute. auto. Qed.

(** The squared error of levels. *)
Definition squared_error (dc ac : Z) (coefs levels : list Z) : Z :=
  fold_right Z.add 0 (map (fun k => let d := nth k coefs 0 - nth k levels 0 * (if (k =? 0)%nat then dc else ac) in d * d) (seq 0 16)).

(** False: the search never makes a block dearer than rounding does. It
    forgets the error of what it drops when zeros move the end of the block
    forward (encoder.cc l.358-367), and takes an end of block after a zero
    for free (the entry is not set by fill_token_costs). Here: 850 instead of
    800. *)
Theorem C65_dearer_refuted :
  ~ (forall tbl t rm dm type ctx dc ac coefs plain found evp evf,
     filled tbl t -> 0 <= type < 4 -> 0 <= ctx < 3 -> length coefs = 16%nat -> (type = Y_after_Y2 -> nth 0 coefs 0 = 0) ->
     quantize dc ac coefs = Some plain -> trellis_quantize (table_costs t rm dm) type ctx dc ac coefs = Some found ->
     serialize_tokens (coeff_prob tbl type) type ctx plain = Some evp -> serialize_tokens (coeff_prob tbl type) type ctx found = Some evf ->
     ResidueModel.rdcost (table_costs t rm dm) (bits_cost evf) (squared_error dc ac coefs found) <=
     ResidueModel.rdcost (table_costs t rm dm) (bits_cost evp) (squared_error dc ac coefs plain)).
Proof.
  intros H. specialize (H k_default_coeff_probs default_table 40 1 Y_without_Y2 0 8 8 ex_coefs ex_plain ex_found).
  refine (_ (H _ _ default_filled _ _ eq_refl _ _ _ _ _)); [|unfold Y_without_Y2; lia|lia|discriminate|vm_compute; reflexivity|vm_compute; reflexivity|vm_compute; reflexivity|vm_compute; reflexivity].
  intros G. vm_compute in G. apply G. reflexivity.
Qed.

Print Assumptions C65_tree.
Print Assumptions C65_tree_tail.
Print Assumptions C65_mv.
Print Assumptions C65_mv_weighted.
Print Assumptions C65_fill.
Print Assumptions C65_block.
Print Assumptions C65_search.
Print Assumptions C65_dearer_refuted.
