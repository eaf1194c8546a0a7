(** Motion vectors. Sources: src/decoder/vp8_header_structures.hh l.163-210,
    src/decoder/macroblock.cc l.143-229, l.283-299, src/decoder/scorer.hh,
    src/encoder/serializer.cc l.196-245. *)
From Verif Require Import Base BoolCoderModel ParserModel TreeModel.

(** Conversion to int16_t. *)
Definition s16 (z : Z) : Z := (z + 32768) mod 65536 - 32768.

(** vp8_header_structures.hh l.163-166: (x, y). *)
Definition mv : Type := (Z * Z)%type.
Definition mv_zero : mv := (0, 0).
(** l.178. *)
Definition mv_eqb (a b : mv) : bool := (fst a =? fst b) && (snd a =? snd b).
(** l.204. *)
Definition mv_empty (a : mv) : bool := (fst a =? 0) && (snd a =? 0).
(** l.179. *)
Definition mv_add (a b : mv) : mv := (s16 (fst a + fst b), s16 (snd a + snd b)).
(** l.196. *)
Definition mv_neg (a : mv) : mv := (s16 (- fst a), s16 (- snd a)).
(** l.180. *)
Definition mv_sub (a b : mv) : mv := mv_add a (mv_neg b).

(** Indices into the 19 component probabilities, macroblock.cc l.201. *)
Definition IS_SHORT := 0%nat. Definition SIGN := 1%nat. Definition SHORT := 2%nat. Definition BITS := 9%nat.

(** The [Z]-valued bit used by [data.get(..) << i]. *)
Definition bitZ (b : bool) (i : Z) : Z := Z.shiftl (if b then 1 else 0) i.

(** macroblock.cc l.205-212: one bit of the long form, for each listed index. *)
Fixpoint read_bits (probs : list Z) (idx : list nat) (x : Z) : dec Z :=
  match idx with
  | [] => dret x
  | i :: r => do b <- bget (nth (BITS + i) probs 0);
              read_bits probs r (x + bitZ b (Z.of_nat i))
  end.

(** The order of the bits in the long form: 0,1,2 then 9 down to 4
    (macroblock.cc l.205, l.210; serializer.cc l.221, l.225). *)
Definition long_bits : list nat := [0; 1; 2; 9; 8; 7; 6; 5; 4]%nat.

(** macroblock.cc l.198-229: read_component. The short form reads the tree
    with the seven probabilities from SHORT on. All values fit int16_t. *)
Definition read_component (probs : list Z) : dec Z :=
  do long <- bget (nth IS_SHORT probs 0);
  do x <-
    (if long : bool then
       do x <- read_bits probs long_bits 0;
       if Z.land x 65520 =? 0 then dret (x + 8)
       else (do b <- bget (nth (BITS + 3) probs 0); dret (if b : bool then x + 8 else x))
     else tree_decode small_mv_tree (firstn 7 (skipn SHORT probs)));
  let x := Z.shiftl x 1 in
  if x =? 0 then dret x
  else (do s <- bget (nth SIGN probs 0); dret (if s : bool then - x else x)).

(** serializer.cc l.196-237. [None] if the tree encoder fails (it does not). *)
Definition write_component (probs : list Z) (num : Z) : option (list event) :=
  let n := Z.shiftr num 1 in
  let x := Z.abs n in
  let sign := if x =? 0 then [] else [(n <? 0, nth SIGN probs 0)] in
  if x <? 8 then
    match tree_encode small_mv_tree (firstn 7 (skipn SHORT probs)) x with
    | None => None
    | Some evs => Some ([(false, nth IS_SHORT probs 0)] ++ evs ++ sign)
    end
  else
    Some ([(true, nth IS_SHORT probs 0)] ++
          map (fun i => (Z.testbit x (Z.of_nat i), nth (BITS + i) probs 0)) long_bits ++
          (if Z.land x 65520 =? 0 then [] else [(Z.testbit x 3, nth (BITS + 3) probs 0)]) ++
          sign).

(** macroblock.cc l.283-287: y first, then x; [probs] holds both components'
    probabilities (y: first 19, x: next 19). *)
Definition read_mv (probs : list Z) : dec mv :=
  do y <- read_component (firstn 19 probs);
  do x <- read_component (skipn 19 probs);
  dret (x, y).

(** serializer.cc l.239-245. *)
Definition write_mv (probs : list Z) (m : mv) : option (list event) :=
  match write_component (firstn 19 probs) (snd m), write_component (skipn 19 probs) (fst m) with
  | Some a, Some b => Some (a ++ b)
  | _, _ => None
  end.

(** scorer.hh l.35-45. *)
Record scorer : Type := mkScorer {
  sc_flipped : bool;
  sc_scores : list Z;
  sc_mvs : list mv;
  sc_split : Z;
  sc_index : nat
}.

(** scorer.hh l.62. *)
Definition scorer_init (flipped : bool) : scorer := mkScorer flipped [0; 0; 0; 0] [mv_zero; mv_zero; mv_zero; mv_zero] 0 0.

Fixpoint set_nth {A} (l : list A) (i : nat) (v : A) : list A :=
  match l, i with
  | [], _ => []
  | _ :: r, O => v :: r
  | x :: r, S i' => x :: set_nth r i' v
  end.

(** scorer.hh l.47-59. *)
Definition scorer_add_mv (s : scorer) (score : Z) (m : mv) : scorer :=
  if mv_empty m then
    mkScorer (sc_flipped s) (set_nth (sc_scores s) 0 (nth 0 (sc_scores s) 0 + score)) (sc_mvs s) (sc_split s) (sc_index s)
  else
    let '(idx, mvs) :=
      if mv_eqb m (nth (sc_index s) (sc_mvs s) mv_zero) then (sc_index s, sc_mvs s)
      else (S (sc_index s), set_nth (sc_mvs s) (S (sc_index s)) m) in
    mkScorer (sc_flipped s) (set_nth (sc_scores s) idx (nth idx (sc_scores s) 0 + score)) mvs (sc_split s) idx.

(** What the census looks at in a neighbouring macroblock: whether it is inter
    coded, its flip flag, its base motion vector, whether it is SPLITMV. *)
Record neighbour : Type := mkNb { nb_inter : bool; nb_flipped : bool; nb_mv : mv; nb_split : bool }.

(** macroblock.cc l.143-155. *)
Definition scorer_add (s : scorer) (score : Z) (mb : option neighbour) : scorer :=
  match mb with
  | None => s
  | Some n =>
      if nb_inter n then
        let m := if Bool.eqb (nb_flipped n) (sc_flipped s) then nb_mv n else mv_neg (nb_mv n) in
        let s' := scorer_add_mv s score m in
        if nb_split n then mkScorer (sc_flipped s') (sc_scores s') (sc_mvs s') (sc_split s' + score) (sc_index s')
        else s'
      else s
  end.

(** macroblock.cc l.157-174. *)
Definition scorer_calculate (s : scorer) : scorer :=
  let sc := sc_scores s in
  let mvs := sc_mvs s in
  let sc := if negb (nth 3 sc 0 =? 0) && mv_eqb (nth (sc_index s) mvs mv_zero) (nth 1 mvs mv_zero)
            then set_nth sc 1 (nth 1 sc 0 + nth 3 sc 0) else sc in
  let '(sc, mvs) :=
    if nth 1 sc 0 <? nth 2 sc 0 then
      (set_nth (set_nth sc 1 (nth 2 sc 0)) 2 (nth 1 sc 0),
       set_nth (set_nth mvs 1 (nth 2 mvs mv_zero)) 2 (nth 1 mvs mv_zero))
    else (sc, mvs) in
  let mvs := if nth 0 sc 0 <=? nth 1 sc 0 then set_nth mvs 0 (nth 1 mvs mv_zero) else mvs in
  mkScorer (sc_flipped s) sc mvs (sc_split s) (sc_index s).

(** macroblock.cc l.301-312: motion_vector_census; serializer.cc l.331-336. *)
Definition mv_census (flipped : bool) (above left above_left : option neighbour) : scorer :=
  scorer_calculate (scorer_add (scorer_add (scorer_add (scorer_init flipped) 2 above) 2 left) 1 above_left).

(** scorer.hh l.64-66, l.72-75. *)
Definition sc_best (s : scorer) : mv := nth 0 (sc_mvs s) mv_zero.
Definition sc_nearest (s : scorer) : mv := nth 1 (sc_mvs s) mv_zero.
Definition sc_near (s : scorer) : mv := nth 2 (sc_mvs s) mv_zero.
Definition sc_contexts (s : scorer) : list Z := [nth 0 (sc_scores s) 0; nth 1 (sc_scores s) 0; nth 2 (sc_scores s) 0; sc_split s].

(** macroblock.cc l.176-195: Scorer::clamp. The limits are computed in 32 bits
    (unsigned for right and bottom) and then cut to int16_t. *)
Definition mv_clamp (column row width height : Z) (m : mv) : mv :=
  let to_left := Z.max (- Z.shiftl (column * 16) 3 - 128) (-32768) in
  let to_right := Z.min (wrap 32 (wrap 32 (Z.shiftl (wrap 32 (wrap 32 (width - 1 - column) * 16)) 3) + 128)) 32767 in
  let to_top := Z.max (- Z.shiftl (row * 16) 3 - 128) (-32768) in
  let to_bottom := Z.min (wrap 32 (wrap 32 (Z.shiftl (wrap 32 (wrap 32 (height - 1 - row) * 16)) 3) + 128)) 32767 in
  (Z.min (Z.max (fst m) to_left) to_right, Z.min (Z.max (snd m) to_top) to_bottom).

(** macroblock.cc l.289-299. *)
Definition luma_to_chroma (a b c e : mv) : mv :=
  let x := s16 (fst a + fst b + fst c + fst e) in
  let y := s16 (snd a + snd b + snd c + snd e) in
  let f z := if 0 <=? z then Z.shiftr (z + 4) 3 else - Z.shiftr (- z + 4) 3 in
  (s16 (f x), s16 (f y)).
