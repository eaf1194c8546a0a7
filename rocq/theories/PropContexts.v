(** Property C56: the contexts that modes, vectors and coefficients are coded
    with are those of the neighbours in the picture. *)
From Verif Require Import Base BoolCoderModel ParserModel Tables TreeModel HeaderModel TokenModel MVModel MBModel ChunkModel ContainerModel FrameModel.
From Verif Require Import BoolEncProofs MBProofs MBDecoded FrameProofs ReconProofs PropMacroblocks PropFrame.

(** ** Independent description: coordinates in the picture *)

(** Element of the macroblock in column x, row y of a picture W macroblocks
    wide; nothing outside of the picture. *)
Definition mb_at {A} (W : nat) (l : list A) (x y : Z) : option A :=
  if (0 <=? x) && (x <? Z.of_nat W) && (0 <=? y) then nth_error l (Z.to_nat (y * Z.of_nat W + x)) else None.
(** Element of the block in column X, row Y of a picture made of macroblocks of
    n x n blocks, listed in raster order by [f]; [d] outside of the picture. *)
Definition blk_at {A B} (n : Z) (W : nat) (d : B) (f : A -> list B) (l : list A) (X Y : Z) : B :=
  match mb_at W l (X / n) (Y / n) with
  | Some m => nth (Z.to_nat (n * (Y mod n) + X mod n)) (f m) d
  | None => d
  end.
Definition col (W i : nat) : Z := Z.of_nat (i mod W).
Definition row (W i : nat) : Z := Z.of_nat (i / W).

(** Sub-block k of macroblock i. *)
Definition bx (n : Z) (W i k : nat) : Z := n * col W i + Z.of_nat k mod n.
Definition by_ (n : Z) (W i k : nat) : Z := n * row W i + Z.of_nat k / n.

(** *** Key frames: sub-block modes *)
Definition key_sub_modes (W : nat) (l : list mbinfo) (i : nat) : option (list event) :=
  let mode := blk_at 4 W B_DC_PRED mb_bmodes l in
  oconcat (map (fun k => let X := bx 4 W i k in let Y := by_ 4 W i k in
    tree_encode b_mode_tree (kf_b_probs (mode X (Y - 1)) (mode (X - 1) Y)) (mode X Y)) (seq 0 16)).

(** *** Motion vector candidates *)

(** The vector of a neighbour as seen from a macroblock with the other sign. *)
Definition seen (flipped : bool) (m : mbinfo) : mv :=
  let v := nth 15 (mb_mvs m) (0, 0) in
  if Bool.eqb (mb_flipped m) flipped then v else (s16 (- fst v), s16 (- snd v)).
Definition vote (flipped : bool) (o : option mbinfo) (w : Z) : list (mv * Z) :=
  match o with Some m => if mb_inter m then [(seen flipped m, w)] else [] | None => [] end.
Definition votes (W : nat) (flipped : bool) (l : list mbinfo) (x y : Z) : list (mv * Z) :=
  vote flipped (mb_at W l x (y - 1)) 2 ++ vote flipped (mb_at W l (x - 1) y) 2 ++ vote flipped (mb_at W l (x - 1) (y - 1)) 1.
Definition is_zero (v : mv) : bool := (fst v =? 0) && (snd v =? 0).
Definition same_mv (v v' : mv) : bool := (fst v =? fst v') && (snd v =? snd v').
(** Equal neighbouring votes are put together. *)
Fixpoint runs (l : list (mv * Z)) : list (mv * Z) :=
  match l with
  | [] => []
  | (v, w) :: r => match runs r with
                   | (v', w') :: r' => if same_mv v v' then (v, w + w') :: r' else (v, w) :: (v', w') :: r'
                   | [] => [(v, w)]
                   end
  end.
Definition total (l : list (mv * Z)) : Z := fold_right (fun a s => snd a + s) 0 l.
Definition run (l : list (mv * Z)) (k : nat) : mv * Z := nth k l ((0, 0), 0).
Record candidates : Type := mkCand { ca_best : mv; ca_nearest : mv; ca_near : mv; ca_contexts : list Z }.
Definition split_weight (o : option mbinfo) (w : Z) : Z :=
  match o with Some m => if mb_inter m && (mb_ymode m =? SPLITMV) then w else 0 | None => 0 end.
Definition candidates_at (W : nat) (flipped : bool) (l : list mbinfo) (x y : Z) : candidates :=
  let vs := votes W flipped l x y in
  let zero := total (filter (fun a => is_zero (fst a)) vs) in
  let r := runs (filter (fun a => negb (is_zero (fst a))) vs) in
  let first := snd (run r 0) + (if (length r =? 3)%nat && same_mv (fst (run r 2)) (fst (run r 0)) then snd (run r 2) else 0) in
  let second := snd (run r 1) in
  let swap := first <? second in
  let nearest := if swap then fst (run r 1) else fst (run r 0) in
  let near := if swap then fst (run r 0) else fst (run r 1) in
  mkCand (if zero <=? Z.max first second then nearest else (0, 0)) nearest near
         [zero; Z.max first second; Z.min first second;
          split_weight (mb_at W l x (y - 1)) 2 + split_weight (mb_at W l (x - 1) y) 2 + split_weight (mb_at W l (x - 1) (y - 1)) 1].

(** Limited so that the predicted macroblock is at most 16 pixels outside of
    the picture (the unit is 1/8 pixel because of chroma). *)
Definition limited (W H : nat) (x y : Z) (v : mv) : mv :=
  let lim lo hi a := Z.min (Z.max a lo) hi in
  (lim (- (128 * x) - 128) (128 * (Z.of_nat W - 1 - x) + 128) (fst v),
   lim (- (128 * y) - 128) (128 * (Z.of_nat H - 1 - y) + 128) (snd v)).

(** How the sixteen sub-blocks of a macroblock are divided: top and bottom, left
    and right, quarters, sixteenths. *)
Definition part_of (p : Z) (k : nat) : Z :=
  let right := Z.of_nat k mod 4 / 2 in
  let lower := Z.of_nat k / 8 in
  if p =? 0 then lower else if p =? 1 then right else if p =? 2 then 2 * lower + right else Z.of_nat k.
(** The first sub-block of each part. *)
Definition firsts (p : Z) : list nat :=
  filter (fun k => forallb (fun j => negb (part_of p j =? part_of p k)) (seq 0 k)) (seq 0 16).

Definition minus (a b : mv) : mv := (s16 (fst a - fst b), s16 (snd a - snd b)).

(** What is written for the mode and the vectors of an inter macroblock. *)
Definition inter_modes (pt : ProbabilityTables) (W H : nat) (l : list mbinfo) (i : nat) (m : mbinfo) : option (list event) :=
  let x := col W i in
  let y := row W i in
  let c := candidates_at W (mb_flipped m) l x y in
  let best := limited W H x y (ca_best c) in
  let vector := blk_at 4 W ((0, 0) : mv) mb_mvs l in
  let mode := blk_at 4 W 0 mb_bmodes l in
  oapp (tree_encode mv_ref_tree (mv_ref_probs (ca_contexts c)) (mb_ymode m))
       (if mb_ymode m =? NEWMV then write_mv (pt_mv pt) (minus (vector (4 * x + 3) (4 * y + 3)) best)
        else if mb_ymode m =? SPLITMV then
          match mb_partition m with
          | None => None
          | Some p =>
              oapp (tree_encode split_mv_tree split_mv_probs p)
                   (oconcat (map (fun k => let X := bx 4 W i k in let Y := by_ 4 W i k in
                      oapp (tree_encode submv_ref_tree (submv_ref_probs (vector (X - 1) Y) (vector X (Y - 1))) (mode X Y))
                           (if mode X Y =? NEW4X4 then write_mv (pt_mv pt) (minus (vector X Y) best) else Some []))
                      (firsts p)))
          end
        else Some []).

(** Which vectors the blocks of an inter macroblock have. *)
Definition inter_vectors (W H : nat) (l : list mbinfo) (i : nat) (m : mbinfo) : Prop :=
  let x := col W i in
  let y := row W i in
  let c := candidates_at W (mb_flipped m) l x y in
  let vector := blk_at 4 W ((0, 0) : mv) mb_mvs l in
  let mode := blk_at 4 W 0 mb_bmodes l in
  let whole v := forall k, (k < 16)%nat -> vector (bx 4 W i k) (by_ 4 W i k) = v in
  (mb_ymode m = NEARESTMV -> whole (limited W H x y (ca_nearest c))) /\
  (mb_ymode m = NEARMV -> whole (limited W H x y (ca_near c))) /\
  (mb_ymode m = ZEROMV -> whole (0, 0)) /\
  (mb_ymode m = NEWMV -> exists v, whole v) /\
  (mb_ymode m = SPLITMV -> exists p, mb_partition m = Some p /\
     forall k j, (k < 16)%nat -> In j (firsts p) -> part_of p k = part_of p j ->
       let X := bx 4 W i j in
       let Y := by_ 4 W i j in
       mode (bx 4 W i k) (by_ 4 W i k) = mode X Y /\ vector (bx 4 W i k) (by_ 4 W i k) = vector X Y /\
       (mode X Y = LEFT4X4 -> vector X Y = vector (X - 1) Y) /\
       (mode X Y = ABOVE4X4 -> vector X Y = vector X (Y - 1)) /\
       (mode X Y = ZERO4X4 -> vector X Y = (0, 0))).

(** *** Coefficients *)

(** Whether the block in column X, row Y of a plane has a non-zero coefficient;
    false outside of the picture. *)
Definition nonzero_at (n : Z) (W : nat) (f : mbcoef -> list block) (cs : list mbcoef) (X Y : Z) : bool :=
  blk_at n W false (fun c => map snd (f c)) cs X Y.
Definition plane_tokens (tbl : list Z) (type n : Z) (W : nat) (f : mbcoef -> list block) (cs : list mbcoef) (i : nat) : option (list event) :=
  oconcat (map (fun k => let X := bx n W i k in let Y := by_ n W i k in
    serialize_tokens (coeff_prob tbl type) type
      ((if nonzero_at n W f cs X (Y - 1) then 1 else 0) + (if nonzero_at n W f cs (X - 1) Y then 1 else 0))
      (blk_at n W [] (fun c => map fst (f c)) cs X Y)) (seq 0 (Z.to_nat (n * n)))).
(** [b] is what the last position below [n] with a Y2 block says; false if
    there is none. *)
Definition last_with (has : Z -> bool) (says : Z -> bool) (n : Z) (b : bool) : Prop :=
  (exists j, 0 <= j < n /\ has j = true /\ (forall k, j < k < n -> has k = false) /\ b = says j) \/
  ((forall k, 0 <= k < n -> has k = false) /\ b = false).
Definition has_y2 (W : nat) (ms : list mbinfo) (x y : Z) : bool :=
  match mb_at W ms x y with Some m => negb ((mb_ymode m =? B_PRED) || (mb_ymode m =? SPLITMV)) | None => false end.
Definition y2_nonzero (W : nat) (cs : list mbcoef) (x y : Z) : bool :=
  match mb_at W cs x y with Some c => snd (co_y2 c) | None => false end.

(** ** Neighbours *)

Lemma mb_at_in {A} W (l : list A) x y j : 0 <= x < Z.of_nat W -> 0 <= y -> Z.of_nat j = y * Z.of_nat W + x -> mb_at W l x y = nth_error l j.
Proof.
  intros Hx Hy Hj. unfold mb_at. destruct ((0 <=? x) && (x <? Z.of_nat W) && (0 <=? y)) eqn:E; [|lia]. f_equal. lia.
Qed.
Lemma mb_at_out {A} W (l : list A) x y : x < 0 \/ y < 0 -> mb_at W l x y = None.
Proof. intros H. unfold mb_at. destruct ((0 <=? x) && (x <? Z.of_nat W) && (0 <=? y)) eqn:E; [lia|reflexivity]. Qed.
Lemma position W i : (0 < W)%nat -> exists c r, (i mod W = c /\ i / W = r /\ c < W /\ i = r * W + c)%nat.
Proof. intros HW. exists (i mod W)%nat, (i / W)%nat. pose proof (Nat.mod_upper_bound i W ltac:(lia)). pose proof (Nat.div_mod i W ltac:(lia)) as D. repeat split; lia. Qed.

Lemma mb_at_self {A} W (l : list A) i : (0 < W)%nat -> mb_at W l (col W i) (row W i) = nth_error l i.
Proof. intros HW. unfold col, row. destruct (position W i HW) as (c & r & -> & -> & Hc & ->). apply mb_at_in; lia. Qed.
Lemma above_at_mb {A} W (l : list A) i : (0 < W)%nat -> above_of W l i = mb_at W l (col W i) (row W i - 1).
Proof.
  intros HW. unfold above_of, col, row. destruct (position W i HW) as (c & r & -> & -> & Hc & ->).
  destruct r as [|r]; [replace (0 * W + c <? W)%nat with true by lia; symmetry; apply mb_at_out; lia|].
  replace (S r * W + c <? W)%nat with false by nia. symmetry. apply mb_at_in; nia.
Qed.
Lemma left_at_mb {A} W (l : list A) i : (0 < W)%nat -> left_of W l i = mb_at W l (col W i - 1) (row W i).
Proof.
  intros HW. unfold left_of, col, row. destruct (position W i HW) as (c & r & -> & -> & Hc & ->).
  destruct c as [|c]; [symmetry; apply mb_at_out; lia|]. cbn [Nat.eqb]. symmetry. apply mb_at_in; nia.
Qed.
Lemma above_left_at_mb {A} W (l : list A) i : (0 < W)%nat -> above_left_of W l i = mb_at W l (col W i - 1) (row W i - 1).
Proof.
  intros HW. unfold above_left_of, col, row. destruct (position W i HW) as (c & r & -> & -> & Hc & ->).
  destruct r as [|r]; [replace (0 * W + c <? W)%nat with true by lia; symmetry; apply mb_at_out; lia|].
  replace (S r * W + c <? W)%nat with false by nia. cbn [orb].
  destruct c as [|c]; [symmetry; apply mb_at_out; lia|]. cbn [Nat.eqb]. symmetry. apply mb_at_in; nia.
Qed.

Lemma blk_self {A B} n W (d : B) (f : A -> list B) l i m k : (0 < W)%nat -> 0 < n -> nth_error l i = Some m -> Z.of_nat k < n * n ->
  blk_at n W d f l (bx n W i k) (by_ n W i k) = nth k (f m) d.
Proof.
  intros HW Hn Hm Hk. unfold blk_at, bx, by_. pose proof (Z.mod_pos_bound (Z.of_nat k) n Hn). pose proof (Z.div_mod (Z.of_nat k) n ltac:(lia)) as D.
  assert (0 <= Z.of_nat k / n < n) by (split; [apply Z.div_pos|apply Z.div_lt_upper_bound]; lia).
  replace (n * col W i + Z.of_nat k mod n) with (Z.of_nat k mod n + col W i * n) by lia.
  replace (n * row W i + Z.of_nat k / n) with (Z.of_nat k / n + row W i * n) by lia.
  rewrite !Z.div_add, !Z.mod_add, (Z.div_small (Z.of_nat k mod n)), (Z.div_small (Z.of_nat k / n)), (Z.mod_small (Z.of_nat k mod n)), (Z.mod_small (Z.of_nat k / n)), !Z.add_0_l by lia.
  rewrite mb_at_self, Hm by exact HW. f_equal. rewrite <- D. apply Nat2Z.id.
Qed.
Lemma blk_up {A B} n W (d : B) (f : A -> list B) l i m k : (0 < W)%nat -> 0 < n -> nth_error l i = Some m -> Z.of_nat k < n * n ->
  blk_at n W d f l (bx n W i k) (by_ n W i k - 1) =
  if Z.of_nat k <? n then match above_of W l i with Some a => nth (Z.to_nat (n * (n - 1) + Z.of_nat k)) (f a) d | None => d end
  else nth (Z.to_nat (Z.of_nat k - n)) (f m) d.
Proof.
  intros HW Hn Hm Hk. unfold blk_at, bx, by_. pose proof (Z.mod_pos_bound (Z.of_nat k) n Hn). pose proof (Z.div_mod (Z.of_nat k) n ltac:(lia)) as D.
  assert (0 <= Z.of_nat k / n < n) by (split; [apply Z.div_pos|apply Z.div_lt_upper_bound]; lia).
  rewrite (Z.add_comm (n * col W i)), (Z.mul_comm n (col _ _)), Z.div_add, Z.mod_add, (Z.div_small (Z.of_nat k mod n)), (Z.mod_small (Z.of_nat k mod n)), Z.add_0_l by lia.
  destruct (Z.of_nat k <? n) eqn:E.
  - assert (Z.of_nat k / n = 0) as -> by (apply Z.div_small; lia). rewrite (Z.mod_small (Z.of_nat k)) by lia.
    replace (n * row W i + 0 - 1) with (n - 1 + (row W i - 1) * n) by lia. rewrite Z.div_add, Z.mod_add, Z.div_small, (Z.mod_small (n - 1)), Z.add_0_l by lia.
    rewrite <- above_at_mb by exact HW. reflexivity.
  - assert (1 <= Z.of_nat k / n) by (apply Z.div_le_lower_bound; lia).
    replace (n * row W i + Z.of_nat k / n - 1) with (Z.of_nat k / n - 1 + row W i * n) by lia.
    rewrite Z.div_add, Z.mod_add, Z.div_small, (Z.mod_small (Z.of_nat k / n - 1)), Z.add_0_l by lia. rewrite mb_at_self, Hm by exact HW. f_equal. f_equal. revert D. generalize (Z.of_nat k mod n) (Z.of_nat k / n). intros. lia.
Qed.
Lemma blk_lft {A B} n W (d : B) (f : A -> list B) l i m k : (0 < W)%nat -> 0 < n -> nth_error l i = Some m -> Z.of_nat k < n * n ->
  blk_at n W d f l (bx n W i k - 1) (by_ n W i k) =
  if Z.of_nat k mod n =? 0 then match left_of W l i with Some a => nth (Z.to_nat (Z.of_nat k + (n - 1))) (f a) d | None => d end
  else nth (Z.to_nat (Z.of_nat k - 1)) (f m) d.
Proof.
  intros HW Hn Hm Hk. unfold blk_at, bx, by_. pose proof (Z.mod_pos_bound (Z.of_nat k) n Hn). pose proof (Z.div_mod (Z.of_nat k) n ltac:(lia)) as D.
  assert (0 <= Z.of_nat k / n < n) by (split; [apply Z.div_pos|apply Z.div_lt_upper_bound]; lia).
  rewrite (Z.add_comm (n * row W i)), (Z.mul_comm n (row _ _)), Z.div_add, Z.mod_add, (Z.div_small (Z.of_nat k / n)), (Z.mod_small (Z.of_nat k / n)), Z.add_0_l by lia.
  destruct (Z.of_nat k mod n =? 0) eqn:E.
  - assert (E' : Z.of_nat k mod n = 0) by lia. rewrite E' in *.
    replace (n * col W i + 0 - 1) with (n - 1 + (col W i - 1) * n) by lia. rewrite Z.div_add, Z.mod_add, Z.div_small, (Z.mod_small (n - 1)), Z.add_0_l by lia.
    rewrite <- left_at_mb by exact HW. destruct (left_of W l i); [|reflexivity]. f_equal. f_equal. revert D. generalize (Z.of_nat k / n). intros. lia.
  - replace (n * col W i + Z.of_nat k mod n - 1) with (Z.of_nat k mod n - 1 + col W i * n) by lia.
    rewrite Z.div_add, Z.mod_add, Z.div_small, (Z.mod_small (Z.of_nat k mod n - 1)), Z.add_0_l by lia. rewrite mb_at_self, Hm by exact HW. f_equal. f_equal. revert D. generalize (Z.of_nat k mod n) (Z.of_nat k / n). intros. lia.
Qed.

Lemma sub_above_at {A} W (d : A) (f : mbinfo -> list A) l i m k : (0 < W)%nat -> nth_error l i = Some m -> (k < 16)%nat ->
  sub_above d (option_map f (above_of W l i)) (f m) k = blk_at 4 W d f l (bx 4 W i k) (by_ 4 W i k - 1).
Proof.
  intros HW Hm Hk. rewrite (blk_up 4 W d f l i m k) by (assumption || lia). unfold sub_above.
  replace (Z.of_nat k <? 4) with (k <? 4)%nat by lia. destruct (k <? 4)%nat eqn:E.
  - destruct (above_of W l i); [|reflexivity]. cbn [option_map]. f_equal. lia.
  - f_equal. lia.
Qed.
Lemma sub_left_at {A} W (d : A) (f : mbinfo -> list A) l i m k : (0 < W)%nat -> nth_error l i = Some m -> (k < 16)%nat ->
  sub_left d (option_map f (left_of W l i)) (f m) k = blk_at 4 W d f l (bx 4 W i k - 1) (by_ 4 W i k).
Proof.
  intros HW Hm Hk. rewrite (blk_lft 4 W d f l i m k) by (assumption || lia). unfold sub_left.
  replace (Z.of_nat k mod 4 =? 0) with (k mod 4 =? 0)%nat by lia. destruct (k mod 4 =? 0)%nat eqn:E.
  - destruct (left_of W l i); [|reflexivity]. cbn [option_map]. f_equal. lia.
  - f_equal. lia.
Qed.

Lemma oconcat_ext {A B} (f g : A -> option (list B)) l : (forall a, In a l -> f a = g a) -> oconcat (map f l) = oconcat (map g l).
Proof. intros H. f_equal. apply map_ext_in. exact H. Qed.

(** Sub-block modes of key frames. *)
Theorem C56_key_sub_modes :
  forall W l i m, (0 < W)%nat -> nth_error l i = Some m -> length (mb_bmodes m) = 16%nat ->
  kf_bmodes_events (option_map mb_bmodes (above_of W l i)) (option_map mb_bmodes (left_of W l i)) (mb_bmodes m) = key_sub_modes W l i.
Proof.
  intros W l i m HW Hm HL. unfold kf_bmodes_events, key_sub_modes. apply oconcat_ext. intros k Hk. apply in_seq in Hk.
  rewrite (sub_above_at W B_DC_PRED mb_bmodes l i m k), (sub_left_at W B_DC_PRED mb_bmodes l i m k) by (assumption || lia). cbv zeta.
  rewrite (blk_self 4 W B_DC_PRED mb_bmodes l i m k) by (assumption || lia). reflexivity.
Qed.

(** Candidates. *)
Lemma same_mv_eqb a b : mv_eqb a b = same_mv a b.
Proof. reflexivity. Qed.
Lemma is_zero_empty a : mv_empty a = is_zero a.
Proof. reflexivity. Qed.

(** A neighbour's vote and its weight for the split context. *)
Definition ballot (flipped : bool) (o : option mbinfo) (w : Z) : option (mv * Z) :=
  match o with Some m => if mb_inter m then Some (seen flipped m, split_weight o w) else None | None => None end.
Definition cast (s : scorer) (k : Z) (o : option (mv * Z)) : scorer :=
  match o with
  | None => s
  | Some (v, w) => let s' := scorer_add_mv s k v in mkScorer (sc_flipped s') (sc_scores s') (sc_mvs s') (sc_split s' + w) (sc_index s')
  end.
Lemma cast_flipped s k o : sc_flipped (cast s k o) = sc_flipped s.
Proof. destruct o as [[v w]|]; [|reflexivity]. cbn. unfold scorer_add_mv. destruct (mv_empty v); [reflexivity|]. destruct (mv_eqb _ _); reflexivity. Qed.
Lemma add_cast s k o : scorer_add s k (option_map as_neighbour o) = cast s k (ballot (sc_flipped s) o k).
Proof.
  destruct o as [m|]; [|reflexivity]. cbn [option_map scorer_add as_neighbour nb_inter nb_flipped nb_mv nb_split ballot].
  unfold split_weight. destruct (mb_inter m); [|reflexivity]. cbn [andb cast]. unfold seen, base_mv, mv_neg.
  change (0, 0) with mv_zero. destruct (mb_ymode m =? SPLITMV); [reflexivity|]. cbv zeta.
  rewrite Z.add_0_r. destruct (scorer_add_mv s k _); reflexivity.
Qed.
Definition listed (o : option (mv * Z)) (w : Z) : list (mv * Z) := match o with Some (v, _) => [(v, w)] | None => [] end.
Definition weight (o : option (mv * Z)) : Z := match o with Some (_, w) => w | None => 0 end.
Lemma vote_ballot flipped o w : vote flipped o w = listed (ballot flipped o w) w.
Proof. destruct o as [m|]; [|reflexivity]. cbn. destruct (mb_inter m); reflexivity. Qed.
Lemma weight_ballot flipped o w : split_weight o w = weight (ballot flipped o w).
Proof. destruct o as [m|]; [|reflexivity]. unfold ballot, split_weight. destruct (mb_inter m); reflexivity. Qed.

Lemma add_mv_eq f sc mvs sp ix k v : scorer_add_mv (mkScorer f sc mvs sp ix) k v =
    if is_zero v then mkScorer f (set_nth sc 0 (nth 0 sc 0 + k)) mvs sp ix
    else if same_mv v (nth ix mvs mv_zero) then mkScorer f (set_nth sc ix (nth ix sc 0 + k)) mvs sp ix
    else mkScorer f (set_nth sc (S ix) (nth (S ix) sc 0 + k)) (set_nth mvs (S ix) v) sp (S ix).
Proof.
  unfold scorer_add_mv. cbn [sc_flipped sc_scores sc_mvs sc_split sc_index]. rewrite is_zero_empty.
  destruct (is_zero v); [reflexivity|]. rewrite same_mv_eqb. destruct (same_mv v (nth ix mvs mv_zero)); reflexivity.
Qed.
Lemma calculate_eq f sc mvs sp ix : scorer_calculate (mkScorer f sc mvs sp ix) =
     let sc1 := if negb (nth 3 sc 0 =? 0) && same_mv (nth ix mvs mv_zero) (nth 1 mvs mv_zero) then set_nth sc 1 (nth 1 sc 0 + nth 3 sc 0) else sc in
     let '(sc2, mvs2) := if nth 1 sc1 0 <? nth 2 sc1 0 then
      (set_nth (set_nth sc1 1 (nth 2 sc1 0)) 2 (nth 1 sc1 0), set_nth (set_nth mvs 1 (nth 2 mvs mv_zero)) 2 (nth 1 mvs mv_zero)) else (sc1, mvs) in
     mkScorer f sc2 (if nth 0 sc2 0 <=? nth 1 sc2 0 then set_nth mvs2 0 (nth 1 mvs2 mv_zero) else mvs2) sp ix.
Proof. reflexivity. Qed.

Lemma census_cast flipped (a b c : option (mv * Z)) :
  let vs := listed a 2 ++ listed b 2 ++ listed c 1 in
  let s := scorer_calculate (cast (cast (cast (scorer_init flipped) 2 a) 2 b) 1 c) in
  let zero := total (filter (fun a => is_zero (fst a)) vs) in
  let r := runs (filter (fun a => negb (is_zero (fst a))) vs) in
  let first := snd (run r 0) + (if (length r =? 3)%nat && same_mv (fst (run r 2)) (fst (run r 0)) then snd (run r 2) else 0) in
  let second := snd (run r 1) in
  let swap := first <? second in
  let nearest := if swap then fst (run r 1) else fst (run r 0) in
  let near := if swap then fst (run r 0) else fst (run r 1) in
  sc_best s = (if zero <=? Z.max first second then nearest else (0, 0)) /\ sc_nearest s = nearest /\ sc_near s = near /\
  sc_contexts s = [zero; Z.max first second; Z.min first second; weight a + weight b + weight c].
Proof.
  assert (SM : forall v v', same_mv v v' = true -> v = v').
  { intros [x y] [x' y'] E. unfold same_mv in E. cbn in E. apply andb_true_iff in E. f_equal; lia. }
  assert (SC : forall v v', same_mv v v' = same_mv v' v) by (intros [x y] [x' y']; unfold same_mv; cbn; rewrite (Z.eqb_sym x), (Z.eqb_sym y); reflexivity).
  assert (Z0 : forall v, is_zero v = false -> same_mv v (0, 0) = false) by (intros [x y] E; exact E).
  assert (SR : forall v, same_mv v v = true) by (intros [x y]; unfold same_mv; cbn; rewrite !Z.eqb_refl; reflexivity).
  intros vs s. subst s.
  remember (cast (scorer_init flipped) 2 a) as s1 eqn:E1.
  remember (cast s1 2 b) as s2 eqn:E2. remember (cast s2 1 c) as s3 eqn:E3.
  intros zero r. 
  remember zero as zz eqn:Ez. unfold zero in Ez. clear zero. remember r as rr eqn:Er. unfold r in Er. clear r. subst vs.
  assert (SN : forall v v', same_mv v v' = false -> same_mv v' v = false) by (intros v v' E; rewrite SC; exact E).
  destruct a as [[va wa]|], b as [[vb wb]|], c as [[vc wc]|]; unfold cast, scorer_init, listed, weight in *;
    repeat match goal with v : mv |- _ => lazymatch goal with H : is_zero v = _ |- _ => fail | _ => destruct (is_zero v) eqn:? end end.
  all: repeat match goal with H : is_zero ?v = false, H' : is_zero ?v' = false |- _ =>
      lazymatch v with v' => fail | _ => idtac end;
      lazymatch goal with K : same_mv v v' = _ |- _ => fail | _ => idtac end;
      destruct (same_mv v v') eqn:?; [match goal with K : same_mv v v' = true |- _ => apply SM in K; subst v' end|
        match goal with K : same_mv v v' = false |- _ => pose proof (SN _ _ K) end] end.
  all: repeat match goal with H : is_zero ?v = false |- _ => lazymatch goal with K : same_mv v (0, 0) = false |- _ => fail | _ => pose proof (Z0 _ H) end end.
  all: repeat (cbn [sc_flipped sc_scores sc_mvs sc_split sc_index nth set_nth mv_zero] in E1; unfold mv_zero in E1;
     first [rewrite add_mv_eq in E1
      | match goal with H : is_zero ?v = _ |- _ => rewrite H in E1 end | match goal with H : same_mv ?v _ = false |- _ => rewrite H in E1 end | rewrite SR in E1]); subst s1.
  all: repeat (cbn [sc_flipped sc_scores sc_mvs sc_split sc_index nth set_nth mv_zero] in E2; unfold mv_zero in E2;
     first [rewrite add_mv_eq in E2
      | match goal with H : is_zero ?v = _ |- _ => rewrite H in E2 end | match goal with H : same_mv ?v _ = false |- _ => rewrite H in E2 end | rewrite SR in E2]); subst s2.
  all: repeat (cbn [sc_flipped sc_scores sc_mvs sc_split sc_index nth set_nth mv_zero] in E3; unfold mv_zero in E3;
     first [rewrite add_mv_eq in E3
      | match goal with H : is_zero ?v = _ |- _ => rewrite H in E3 end | match goal with H : same_mv ?v _ = false |- _ => rewrite H in E3 end | rewrite SR in E3]); subst s3.
  all: cbn [app filter fst snd] in Ez, Er; repeat match goal with H : is_zero ?v = _ |- _ => rewrite H in Ez, Er end; cbn [negb runs total fold_right fst snd app filter] in Ez, Er.
  all: repeat (first [match goal with H : same_mv ?v ?w = false |- _ => rewrite H in Er end | rewrite SR in Er | progress cbn [runs] in Er]).
  all: subst; rewrite calculate_eq; cbn; unfold mv_zero; rewrite ?SR; repeat match goal with H : same_mv ?v _ = false |- _ => rewrite !H end.
  all: cbn; unfold sc_best, sc_nearest, sc_near, sc_contexts; cbn.
  all: repeat split; rewrite ?Z.add_0_r; try reflexivity; repeat f_equal; lia.
Qed.

Lemma census_candidates W flipped l i : (0 < W)%nat ->
  let s := census_at W flipped l i in let c := candidates_at W flipped l (col W i) (row W i) in
  sc_best s = ca_best c /\ sc_nearest s = ca_nearest c /\ sc_near s = ca_near c /\ sc_contexts s = ca_contexts c.
Proof.
  intros HW s c. subst s c. unfold census_at, mv_census. rewrite above_at_mb, left_at_mb, above_left_at_mb by exact HW.
  rewrite !add_cast, !cast_flipped. cbn [scorer_init sc_flipped].
  unfold candidates_at, votes. rewrite !vote_ballot, !(weight_ballot flipped). cbn [ca_best ca_nearest ca_near ca_contexts]. apply census_cast.
Qed.

Lemma clamp_limited W H i v : mv_ok v -> (0 < W <= 2048)%nat -> (H <= 2048)%nat -> (i < W * H)%nat -> clamp_at W H i v = limited W H (col W i) (row W i) v.
Proof.
  intros [A B] HW HH Hi. unfold clamp_at, limited, mv_clamp, col, row. destruct (position W i (proj1 HW)) as (c & r & -> & -> & Hc & ->).
  assert (r < H)%nat by nia. rewrite !Z.shiftl_mul_pow2 by lia. change (2 ^ 3) with 8.
  assert (T : forall n k, (0 <= k < n)%nat -> (n <= 2048)%nat -> wrap 32 (wrap 32 (wrap 32 (wrap 32 (Z.of_nat n - 1 - Z.of_nat k) * 16) * 8) + 128) = 128 * (Z.of_nat n - 1 - Z.of_nat k) + 128).
  { intros n k Hk Hn. rewrite (wrap_small 32 (Z.of_nat n - 1 - Z.of_nat k)) by (change (2 ^ 32) with 4294967296; lia).
    rewrite (wrap_small 32 (_ * 16)) by (change (2 ^ 32) with 4294967296; lia). rewrite (wrap_small 32 (_ * 8)) by (change (2 ^ 32) with 4294967296; lia).
    rewrite wrap_small by (change (2 ^ 32) with 4294967296; lia). lia. }
  rewrite !T by lia.
  f_equal; lia.
Qed.

Lemma firsts_eq p : 0 <= p < 4 -> map (hd 0%nat) (mv_partition p) = firsts p.
Proof.
  intros H. assert (C : p = 0 \/ p = 1 \/ p = 2 \/ p = 3) by lia. destruct C as [ -> | [ -> | [ -> | -> ]]]; reflexivity.
Qed.
(** Sub-block k belongs to the part whose first block is j. *)
Lemma parts_eq p k j : 0 <= p < 4 -> (k < 16)%nat -> In j (firsts p) -> part_of p k = part_of p j ->
  exists part, In part (mv_partition p) /\ hd 0%nat part = j /\ In k part.
Proof.
  intros Hp Hk Hj E.
  assert (T : forallb (fun p => forallb (fun k => forallb (fun j => negb (part_of p k =? part_of p j) ||
     existsb (fun part => (hd 0 part =? j)%nat && existsb (Nat.eqb k) part) (mv_partition p)) (firsts p)) (seq 0 16)) [0; 1; 2; 3] = true) by (vm_compute; reflexivity).
  rewrite forallb_forall in T. assert (I : In p [0; 1; 2; 3]) by (cbn; lia). specialize (T p I). rewrite forallb_forall in T.
  specialize (T k ltac:(apply in_seq; lia)). rewrite forallb_forall in T. specialize (T j Hj). rewrite E, Z.eqb_refl in T. cbn [negb orb] in T.
  apply existsb_exists in T. destruct T as (part & P1 & P2). apply andb_true_iff in P2. destruct P2 as [P2 P3].
  apply existsb_exists in P3. destruct P3 as (k' & K1 & K2). apply Nat.eqb_eq in K2, P2. subst k'. exists part. tauto.
Qed.
Lemma firsts_bound p j : 0 <= p < 4 -> In j (firsts p) -> (j < 16)%nat.
Proof. intros Hp Hj. unfold firsts in Hj. apply filter_In in Hj. destruct Hj as [Hj _]. apply in_seq in Hj. lia. Qed.

Lemma minus_eq a b : mv_sub a b = minus a b.
Proof. unfold mv_sub, mv_add, mv_neg, minus. cbn [fst snd]. f_equal; unfold s16; lia. Qed.

(** What [if_mb_ok] says about an inter macroblock, in the form used here. *)
Lemma inter_facts h W H l i m : (0 < W <= 2048)%nat -> (H <= 2048)%nat -> length l = (W * H)%nat ->
  (forall i m, nth_error l i = Some m -> if_mb_ok h W H l i m) -> nth_error l i = Some m -> mb_inter m = true ->
  let c := candidates_at W (mb_flipped m) l (col W i) (row W i) in
  let census := census_at W (mb_flipped m) l i in
  clamp_at W H i (sc_best census) = limited W H (col W i) (row W i) (ca_best c) /\
  clamp_at W H i (sc_nearest census) = limited W H (col W i) (row W i) (ca_nearest c) /\
  clamp_at W H i (sc_near census) = limited W H (col W i) (row W i) (ca_near c) /\
  sc_contexts census = ca_contexts c /\ inter_modes_ok W H l i m.
Proof.
  intros HW HH HL HM Hm HI c census. destruct (census_candidates W (mb_flipped m) l i (proj1 HW)) as (E1 & E2 & E3 & E4). fold c census in E1, E2, E3, E4.
  assert (C : Forall mv_ok (sc_mvs census)).
  { apply census_ok; [|exact (proj1 HW)]. intros j mj _ Hj. exact (proj1 (parsed_mvs_ok h W H l (proj1 HW) HM j mj Hj)). }
  assert (N : forall k, mv_ok (nth k (sc_mvs census) mv_zero)) by (intros; apply Forall_nth_d; [exact C|exact mv_ok_zero]).
  assert (Hi : (i < W * H)%nat) by (rewrite <- HL; apply nth_error_Some; congruence).
  rewrite <- E1, <- E2, <- E3. unfold sc_best, sc_nearest, sc_near in *.
  rewrite !clamp_limited by (apply N || assumption).
  split; [reflexivity|]. split; [reflexivity|]. split; [reflexivity|]. split; [exact E4|].
  destruct (HM i m Hm) as (_ & _ & _ & X). rewrite HI in X. apply X.
Qed.

(** The modes and vectors of inter macroblocks. *)
Theorem C56_inter_modes :
  forall h pt W H l i m, (0 < W <= 2048)%nat -> (H <= 2048)%nat -> length l = (W * H)%nat ->
  (forall i m, nth_error l i = Some m -> if_mb_ok h W H l i m) -> nth_error l i = Some m -> mb_inter m = true ->
  inter_modes_events pt W H l i m = inter_modes pt W H l i m.
Proof.
  intros h pt W H l i m HW HH HL HM Hm HI.
  destruct (inter_facts h W H l i m HW HH HL HM Hm HI) as (E1 & _ & _ & E4 & OK).
  pose proof (proj2 (parsed_mvs_ok h W H l (proj1 HW) HM i m Hm)) as L.
  unfold inter_modes_events, inter_modes. cbv zeta. rewrite E1, E4. f_equal.
  destruct (mb_ymode m =? NEWMV).
  - rewrite minus_eq. f_equal. f_equal. unfold base_mv. symmetry.
    pose proof (blk_self 4 W ((0, 0) : mv) mb_mvs l i m 15 (proj1 HW) ltac:(lia) Hm ltac:(lia)) as B. unfold bx, by_ in B. exact B.
  - destruct (mb_ymode m =? SPLITMV) eqn:ES; [|reflexivity]. destruct (mb_partition m) as [p|] eqn:EP; [|reflexivity]. f_equal.
    assert (Hp : 0 <= p < 4 /\ length (mb_bmodes m) = 16%nat).
    { unfold inter_modes_ok in OK. cbv zeta in OK.
      destruct OK as [(X & _)|[(X & _)|[(X & _)|[(X & _)|(_ & q & Y & Z & LB & _)]]]]; try (rewrite X in ES; discriminate). split; [|exact LB]. congruence. }
    destruct Hp as [Hp LB]. unfold split_events. rewrite <- firsts_eq by exact Hp. rewrite map_map. apply oconcat_ext. intros part HPart.
    assert (Hk : (hd 0 part < 16)%nat) by (apply (firsts_bound p); [exact Hp|]; rewrite <- firsts_eq by exact Hp; apply in_map; exact HPart).
    set (k := hd 0%nat part) in *. unfold sub_mv_events.
    rewrite combine_fst_snd by congruence. rewrite (combine_nth (mb_bmodes m) (mb_mvs m) k 0 mv_zero) by congruence.
    change mv_zero with ((0, 0) : mv).
    rewrite (sub_above_at W ((0, 0) : mv) mb_mvs l i m k), (sub_left_at W ((0, 0) : mv) mb_mvs l i m k) by (assumption || lia).
    rewrite (blk_self 4 W 0 mb_bmodes l i m k), (blk_self 4 W ((0, 0) : mv) mb_mvs l i m k) by (assumption || lia). rewrite minus_eq. reflexivity.
Qed.

Theorem C56_inter_vectors :
  forall h W H l i m, (0 < W <= 2048)%nat -> (H <= 2048)%nat -> length l = (W * H)%nat ->
  (forall i m, nth_error l i = Some m -> if_mb_ok h W H l i m) -> nth_error l i = Some m -> mb_inter m = true ->
  inter_vectors W H l i m.
Proof.
  intros h W H l i m HW HH HL HM Hm HI.
  destruct (inter_facts h W H l i m HW HH HL HM Hm HI) as (E1 & E2 & E3 & E4 & OK).
  pose proof (proj2 (parsed_mvs_ok h W H l (proj1 HW) HM i m Hm)) as L.
  assert (S : forall k, (k < 16)%nat -> blk_at 4 W ((0, 0) : mv) mb_mvs l (bx 4 W i k) (by_ 4 W i k) = nth k (mb_mvs m) (0, 0)).
  { intros k Hk. apply (blk_self 4 W ((0, 0) : mv) mb_mvs l i m k); (assumption || lia). }
  assert (SM : forall k, (k < 16)%nat -> blk_at 4 W 0 mb_bmodes l (bx 4 W i k) (by_ 4 W i k) = nth k (mb_bmodes m) 0).
  { intros k Hk. apply (blk_self 4 W 0 mb_bmodes l i m k); (assumption || lia). }
  unfold inter_modes_ok in OK. cbv zeta in OK. rewrite E1, E2, E3 in OK.
  unfold inter_vectors. cbv zeta.
  assert (R : forall v, mb_mvs m = repeat v 16 -> forall k, (k < 16)%nat -> nth k (mb_mvs m) (0, 0) = v).
  { intros v -> k Hk. rewrite (nth_indep _ (0, 0) v) by (rewrite repeat_length; exact Hk). apply nth_repeat. }
  destruct OK as [(M & _ & _ & V)|[(M & _ & _ & V)|[(M & _ & _ & V)|[(M & v & (_ & _ & V) & _)|(M & p & P1 & P2 & P3 & P4 & P5 & P6)]]]];
    rewrite M; split; (try (intros X; discriminate X)); (try (intros _ k Hk; rewrite S by exact Hk; apply R; [exact V|exact Hk]));
    (split; (try (intros X; discriminate X)); (try (intros _ k Hk; rewrite S by exact Hk; apply R; [exact V|exact Hk])));
    (split; (try (intros X; discriminate X)); (try (intros _ k Hk; rewrite S by exact Hk; apply R; [exact V|exact Hk])));
    (split; (try (intros X; discriminate X))).
  - intros _. exists v. intros k Hk. rewrite S by exact Hk. apply R; [exact V|exact Hk].
  - intros _. exists p. split; [exact P1|]. intros k j Hk Hj E.
    destruct (parts_eq p k j P2 Hk Hj E) as (part & I1 & <- & I2). destruct (P6 part I1) as [Q1 Q2].
    pose proof (firsts_bound p _ P2 Hj) as Hj'. set (j := hd 0%nat part) in *.
    rewrite (SM k), (SM j), (S k), (S j) by assumption. specialize (Q2 k I2).
    rewrite !(combine_nth (mb_bmodes m) (mb_mvs m) _ 0 mv_zero) in Q2 by congruence. change mv_zero with ((0, 0) : mv) in Q2. injection Q2 as Q2 Q3.
    split; [exact Q2|]. split; [exact Q3|]. unfold sub_ok in Q1. cbv zeta in Q1.
    rewrite combine_fst_snd in Q1 by congruence. rewrite (combine_nth (mb_bmodes m) (mb_mvs m) j 0 mv_zero) in Q1 by congruence.
    change mv_zero with ((0, 0) : mv) in Q1.
    rewrite (sub_above_at W ((0, 0) : mv) mb_mvs l i m j), (sub_left_at W ((0, 0) : mv) mb_mvs l i m j) in Q1 by (assumption || lia).
    destruct Q1 as [(N & Q)|[(N & Q)|[(N & Q)|(N & _)]]]; rewrite N; (split; [|split]); try (intros X; discriminate X); intros _; exact Q.
Qed.

(** *** Coefficients *)
Lemma blk_map {A B C} n W (d : B) (g : B -> C) (f : A -> list B) l X Y : blk_at n W (g d) (fun c => map g (f c)) l X Y = g (blk_at n W d f l X Y).
Proof. unfold blk_at. destruct (mb_at W l (X / n) (Y / n)); [|reflexivity]. apply map_nth. Qed.

Lemma blk_above_at W (f : mbcoef -> list block) cs i c w k : (0 < W)%nat -> (0 < w)%nat -> nth_error cs i = Some c -> (k < w * w)%nat ->
  blk_above w (option_map f (above_of W cs i)) (f c) k = nonzero_at (Z.of_nat w) W f cs (bx (Z.of_nat w) W i k) (by_ (Z.of_nat w) W i k - 1).
Proof.
  intros HW Hw Hc Hk. unfold nonzero_at. etransitivity; [|symmetry; apply (blk_map (Z.of_nat w) W fresh_block snd f cs)].
  rewrite (blk_up (Z.of_nat w) W fresh_block f cs i c k) by (assumption || nia). unfold blk_above.
  replace (Z.of_nat k <? Z.of_nat w) with (k <? w)%nat by lia. destruct (k <? w)%nat.
  - destruct (above_of W cs i); [|reflexivity]. cbn [option_map]. f_equal. f_equal. nia.
  - f_equal. f_equal. lia.
Qed.
Lemma blk_left_at W (f : mbcoef -> list block) cs i c w k : (0 < W)%nat -> (0 < w)%nat -> nth_error cs i = Some c -> (k < w * w)%nat ->
  blk_left w (option_map f (left_of W cs i)) (f c) k = nonzero_at (Z.of_nat w) W f cs (bx (Z.of_nat w) W i k - 1) (by_ (Z.of_nat w) W i k).
Proof.
  intros HW Hw Hc Hk. unfold nonzero_at. etransitivity; [|symmetry; apply (blk_map (Z.of_nat w) W fresh_block snd f cs)].
  rewrite (blk_lft (Z.of_nat w) W fresh_block f cs i c k) by (assumption || nia). unfold blk_left.
  replace (Z.of_nat k mod Z.of_nat w =? 0) with (k mod w =? 0)%nat by (rewrite <- Nat2Z.inj_mod; lia). destruct (k mod w =? 0)%nat.
  - destruct (left_of W cs i); [|reflexivity]. cbn [option_map]. f_equal. f_equal. lia.
  - f_equal. f_equal. lia.
Qed.

Lemma combine_seq_map {A B} (g : nat -> A -> B) (d : A) l : forall s, map (fun '(k, b) => g k b) (combine (seq s (length l)) l) = map (fun k => g k (nth (k - s) l d)) (seq s (length l)).
Proof.
  induction l as [|a l IH]; intros s; [reflexivity|]. cbn [length seq combine map]. f_equal; [rewrite Nat.sub_diag; reflexivity|].
  rewrite IH. apply map_ext_in. intros k Hk. apply in_seq in Hk. replace (k - s)%nat with (Datatypes.S (k - Datatypes.S s)) by lia. reflexivity.
Qed.

Theorem C56_plane_tokens :
  forall tbl type W w (f : mbcoef -> list block) cs i c, (0 < W)%nat -> (0 < w)%nat -> nth_error cs i = Some c -> length (f c) = (w * w)%nat ->
  plane_events tbl type w (option_map f (above_of W cs i)) (option_map f (left_of W cs i)) (f c) = plane_tokens tbl type (Z.of_nat w) W f cs i.
Proof.
  intros tbl type W w f cs i c HW Hw Hc HL. unfold plane_events, plane_tokens.
  rewrite (combine_seq_map (fun k (b : block) => serialize_tokens (coeff_prob tbl type) type (blk_ctx w (option_map f (above_of W cs i)) (option_map f (left_of W cs i)) (f c) k) (fst b)) (([], false) : block)).
  rewrite HL. replace (Z.to_nat (Z.of_nat w * Z.of_nat w)) with (w * w)%nat by lia. apply oconcat_ext. intros k Hk. apply in_seq in Hk.
  rewrite Nat.sub_0_r. unfold blk_ctx, b2z. cbv zeta.
  rewrite (blk_above_at W f cs i c w k), (blk_left_at W f cs i c w k) by (assumption || lia).
  f_equal. symmetry. etransitivity; [apply (blk_map (Z.of_nat w) W (([], false) : block) fst f cs)|]. f_equal. apply blk_self; (assumption || lia).
Qed.

Lemma nearest_last (flags : list (bool * bool)) (at_ : nat -> nat) : forall n,
  let has k := match nth_error flags (at_ (Z.to_nat k)) with Some (b, _) => b | None => false end in
  let says k := match nth_error flags (at_ (Z.to_nat k)) with Some (_, b) => b | None => false end in
  last_with has says (Z.of_nat n) (nearest_coded flags (map (fun k => at_ (n - k)%nat) (seq 1 n))).
Proof.
  intros n has says. enough (G : forall d e, (d + e = n)%nat -> (forall k, Z.of_nat e <= k < Z.of_nat n -> has k = false) ->
    last_with has says (Z.of_nat n) (nearest_coded flags (map (fun k => at_ (n - k)%nat) (seq (Datatypes.S d) e)))).
  { apply (G 0%nat n); [reflexivity|lia]. }
  intros d e. revert d. induction e as [|e IH]; intros d He HF.
  - cbn. right. split; [|reflexivity]. intros k Hk. apply HF. lia.
  - cbn [seq map nearest_coded]. replace (n - Datatypes.S d)%nat with e by lia.
    destruct (nth_error flags (at_ e)) as [[b nz]|] eqn:E.
    + destruct b.
      * left. exists (Z.of_nat e). unfold has, says in *. rewrite Nat2Z.id, E. repeat split; try lia. intros k Hk. apply HF. lia.
      * apply IH; [lia|]. intros k Hk. destruct (Z.eq_dec k (Z.of_nat e)) as [->|]; [unfold has; rewrite Nat2Z.id, E; reflexivity|]. apply HF. lia.
    + apply IH; [lia|]. intros k Hk. destruct (Z.eq_dec k (Z.of_nat e)) as [->|]; [unfold has; rewrite Nat2Z.id, E; reflexivity|]. apply HF. lia.
Qed.

Lemma last_with_ext has says has' says' n b : (forall k, 0 <= k < n -> has k = has' k) -> (forall k, 0 <= k < n -> has k = true -> says k = says' k) ->
  last_with has says n b -> last_with has' says' n b.
Proof.
  intros H1 H2 [(j & J1 & J2 & J3 & J4)|[K1 K2]].
  - left. exists j. split; [exact J1|]. split; [rewrite <- H1 by exact J1; exact J2|]. split; [|rewrite <- H2 by assumption; exact J4].
    intros k Hk. rewrite <- H1 by lia. apply J3. exact Hk.
  - right. split; [|exact K2]. intros k Hk. rewrite <- H1 by exact Hk. apply K1. exact Hk.
Qed.

Theorem C56_y2_context :
  forall W ms cs i, (0 < W)%nat -> (i <= length cs)%nat -> (length cs <= length ms)%nat ->
  exists a l : bool, y2_ctx W ms cs i = (if a then 1 else 0) + (if l then 1 else 0) /\
    last_with (has_y2 W ms (col W i)) (y2_nonzero W cs (col W i)) (row W i) a /\
    last_with (fun x => has_y2 W ms x (row W i)) (fun x => y2_nonzero W cs x (row W i)) (col W i) l.
Proof.
  intros W ms cs i HW Hi HL.
  exists (nearest_coded (y2_flags ms cs) (above_positions W i)), (nearest_coded (y2_flags ms cs) (left_positions W i)).
  split; [reflexivity|].
  assert (F : forall j, (j < i)%nat -> exists m c, nth_error ms j = Some m /\ nth_error cs j = Some c /\ nth_error (y2_flags ms cs) j = Some (y2_coded m, snd (co_y2 c))).
  { intros j Hj. destruct (nth_error cs j) as [c|] eqn:EC; [|apply nth_error_None in EC; lia]. destruct (nth_error ms j) as [m|] eqn:EM; [|apply nth_error_None in EM; lia].
    exists m, c. split; [reflexivity|]. split; [reflexivity|]. unfold y2_flags.
    assert (G : forall (A B : Type) (la : list A) (lb : list B) j a b, nth_error la j = Some a -> nth_error lb j = Some b -> nth_error (combine la lb) j = Some (a, b)).
    { intros A B la. induction la as [|x la IH]; intros [|y lb] [|j'] a b Ea Eb; cbn in *; try discriminate; [congruence|]. apply IH; assumption. }
    apply G; rewrite nth_error_map; [rewrite EM|rewrite EC]; reflexivity. }
  unfold col, row in *. destruct (position W i HW) as (c & r & Ec & Er & Hc & Ei). rewrite Ec, Er. split.
  - unfold above_positions. rewrite Er.
    replace (map (fun k => (i - W * k)%nat) (seq 1 r)) with (map (fun k => (fun n => n * W + c)%nat (r - k)%nat) (seq 1 r))
      by (apply map_ext_in; intros k Hk; apply in_seq in Hk; nia).
    eapply last_with_ext; [| |apply (nearest_last (y2_flags ms cs) (fun n => n * W + c)%nat)]; intros k Hk.
    + assert (HJ : (Z.to_nat k * W + c < i)%nat) by nia. destruct (F _ HJ) as (m & co & E1 & E2 & E3). rewrite E3. unfold has_y2.
      rewrite (mb_at_in W ms (Z.of_nat c) k (Z.to_nat k * W + c)%nat) by nia. rewrite E1. reflexivity.
    + intros _. assert (HJ : (Z.to_nat k * W + c < i)%nat) by nia. destruct (F _ HJ) as (m & co & E1 & E2 & E3). rewrite E3. unfold y2_nonzero.
      rewrite (mb_at_in W cs (Z.of_nat c) k (Z.to_nat k * W + c)%nat) by nia. rewrite E2. reflexivity.
  - unfold left_positions. rewrite Ec.
    replace (map (fun k => (i - k)%nat) (seq 1 c)) with (map (fun k => (fun n => r * W + n)%nat (c - k)%nat) (seq 1 c))
      by (apply map_ext_in; intros k Hk; apply in_seq in Hk; nia).
    eapply last_with_ext; [| |apply (nearest_last (y2_flags ms cs) (fun n => r * W + n)%nat)]; intros k Hk; cbv beta.
    + assert (HJ : (r * W + Z.to_nat k < i)%nat) by nia. destruct (F _ HJ) as (m & co & E1 & E2 & E3). rewrite E3. unfold has_y2.
      rewrite (mb_at_in W ms k (Z.of_nat r) (r * W + Z.to_nat k)%nat) by nia. rewrite E1. reflexivity.
    + intros _. assert (HJ : (r * W + Z.to_nat k < i)%nat) by nia. destruct (F _ HJ) as (m & co & E1 & E2 & E3). rewrite E3. unfold y2_nonzero.
      rewrite (mb_at_in W cs k (Z.of_nat r) (r * W + Z.to_nat k)%nat) by nia. rewrite E2. reflexivity.
Qed.

(** All that is written for the coefficients of a macroblock. *)
Theorem C56_macroblock_tokens :
  forall tbl W ms cs i m c, (0 < W)%nat -> nth_error cs i = Some c ->
  length (co_y c) = 16%nat -> length (co_u c) = 4%nat -> length (co_v c) = 4%nat ->
  mb_tokens_events tbl W ms cs i m c =
  if skipped m then Some []
  else oapp (if y2_coded m then serialize_tokens (coeff_prob tbl Y2_type) Y2_type (y2_ctx W ms cs i) (fst (co_y2 c)) else Some [])
       (oapp (plane_tokens tbl (y_type m) 4 W co_y cs i)
       (oapp (plane_tokens tbl UV_type 2 W co_u cs i) (plane_tokens tbl UV_type 2 W co_v cs i))).
Proof.
  intros tbl W ms cs i m c HW Hc HY HU HV. unfold mb_tokens_events.
  rewrite (C56_plane_tokens tbl (y_type m) W 4 co_y cs i c), (C56_plane_tokens tbl UV_type W 2 co_u cs i c), (C56_plane_tokens tbl UV_type W 2 co_v cs i c) by (assumption || lia).
  reflexivity.
Qed.

(** ** Examples *)

(** The 3x2 frames of C09 and C10: sub-blocks with different modes above and to
    the left, non-zero candidates with every kind of weight, split parts that
    take over a neighbour's vector. *)
Example C56_key_example :
  exists m, nth_error example_key_mbs 4 = Some m /\ length (mb_bmodes m) = 16%nat /\ mb_ymode m = B_PRED /\
  map (fun k => (blk_at 4 3 B_DC_PRED mb_bmodes example_key_mbs (bx 4 3 4 k) (by_ 4 3 4 k - 1),
                 blk_at 4 3 B_DC_PRED mb_bmodes example_key_mbs (bx 4 3 4 k - 1) (by_ 4 3 4 k))) [0; 1]%nat <> [(0, 0); (0, 0)].
Proof. eexists. split; [vm_compute; reflexivity|]. repeat split; vm_compute; congruence. Qed.
Example C56_inter_example :
  length example_inter_mbs = (3 * 2)%nat /\
  (forall i m, nth_error example_inter_mbs i = Some m -> if_mb_ok example_ifh 3 2 example_inter_mbs i m) /\
  map mb_inter example_inter_mbs = repeat true 6 /\
  map (fun i => let m := nth i example_inter_mbs (mkMB None None false None None false None 0 [] [] 0) in
                ca_contexts (candidates_at 3 (mb_flipped m) example_inter_mbs (col 3 i) (row 3 i))) (seq 0 6) =
  [[0; 0; 0; 0]; [2; 0; 0; 2]; [0; 2; 0; 2]; [2; 0; 0; 2]; [1; 2; 2; 5]; [0; 3; 2; 1]].
Proof.
  destruct (yields_if_macroblocks example_ifh default_tables 3 2 ltac:(lia) (bdec_init true example_bytes)) as [HL HF].
  split; [exact HL|]. split; [exact HF|]. split; vm_compute; reflexivity.
Qed.
Example C56_tokens_example :
  coefs_ok example_kf_ms example_kf_cs /\
  existsb (fun k => nonzero_at 4 3 co_y example_kf_cs (bx 4 3 4 k) (by_ 4 3 4 k - 1)) (seq 0 16) = true /\
  existsb (fun k => negb (nonzero_at 4 3 co_y example_kf_cs (bx 4 3 4 k) (by_ 4 3 4 k - 1))) (seq 0 16) = true.
Proof. split; [apply coefs_ok_decoded|]. split; vm_compute; reflexivity. Qed.

Print Assumptions C56_key_sub_modes.
Print Assumptions C56_inter_modes.
Print Assumptions C56_inter_vectors.
Print Assumptions C56_plane_tokens.
Print Assumptions C56_macroblock_tokens.
Print Assumptions C56_y2_context.
