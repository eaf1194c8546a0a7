(** Parsers over the boolean decoder, and the primitive field codecs.
    Sources: src/decoder/tree.cc, src/encoder/encode_tree.cc,
    src/decoder/vp8_header_structures.hh, src/encoder/serializer.cc. *)
From Verif Require Import Base BoolCoderModel.

(** A parser: a C++ function that takes a BoolDecoder by reference. *)
Definition dec (A : Type) : Type := bdec -> A * bdec.

Definition dret {A} (a : A) : dec A := fun d => (a, d).
Definition dbind {A B} (m : dec A) (f : A -> dec B) : dec B :=
  fun d => let '(a, d') := m d in f a d'.

Notation "'do' x <- m ; k" := (dbind m (fun x => k))
  (at level 200, x pattern, m at level 100, k at level 200, right associativity).

(** Reading n items with the same parser, in order (std constructors of the
    aggregate types evaluate element by element). *)
Fixpoint drep {A} (n : nat) (m : dec A) : dec (list A) :=
  match n with
  | O => dret []
  | S n' => do a <- m; do r <- drep n' m; dret (a :: r)
  end.

(** Reading a list of items, one parser per element of [l], in order. *)
Fixpoint dmap {A B} (f : A -> dec B) (l : list A) : dec (list B) :=
  match l with
  | [] => dret []
  | a :: r => do b <- f a; do bs <- dmap f r; dret (b :: bs)
  end.

(** ** Trees *)

(** decoder/tree.cc l.35-57. [fuel] bounds the number of iterations of the
    while loop; -1 (not a symbol) if it runs out, or if the node index leaves
    the array. *)
Fixpoint tree_loop (fuel : nat) (nodes probs : list Z) (i : Z) : dec Z :=
  match fuel with
  | O => dret (-1)
  | S f =>
      do b <- bget (nth (Z.to_nat (Z.shiftr i 1)) probs 0);
      let n := nth (Z.to_nat (i + (if b : bool then 1 else 0))) nodes 1 in
      if 0 <? n then tree_loop f nodes probs n else dret (- n)
  end.

Definition tree_decode (nodes probs : list Z) : dec Z :=
  tree_loop (length nodes) nodes probs 0.

(** encode_tree.cc l.40-44: value_to_index; the last matching position wins.
    [None]: the entry is never written (the C++ code would read an
    uninitialised element). *)
Fixpoint value_to_index_from (nodes : list Z) (i : Z) (v : Z) : option Z :=
  match nodes with
  | [] => None
  | n :: r => match value_to_index_from r (i + 1) v with
              | Some j => Some j
              | None => if n =? v then Some i else None
              end
  end.
Definition value_to_index (nodes : list Z) (v : Z) : option Z := value_to_index_from nodes 0 v.

(** encode_tree.cc l.46-54: collect (bit, probability index) from the leaf up
    to the root. *)
Fixpoint tree_up (fuel : nat) (nodes : list Z) (node_index : Z) : option (list (bool * Z)) :=
  let here := (Z.odd node_index, Z.shiftr node_index 1) in
  if 1 <? node_index then
    match fuel with
    | O => None
    | S f => match value_to_index nodes (Z.land node_index 254) with
             | None => None
             | Some p => match tree_up f nodes p with
                         | None => None
                         | Some l => Some (here :: l)
                         end
             end
    end
  else Some [here].

(** encode_tree.cc l.35-60: the path of a symbol, root first. *)
Definition tree_path (nodes : list Z) (value : Z) : option (list (bool * Z)) :=
  match value_to_index nodes (- value) with
  | None => None
  | Some i => option_map (@rev _) (tree_up (length nodes) nodes i)
  end.

(** encode_tree.cc l.35-60: the bits put into the encoder. *)
Definition tree_encode (nodes probs : list Z) (value : Z) : option (list event) :=
  option_map (map (fun '(b, i) => (b, nth (Z.to_nat i) probs 0))) (tree_path nodes value).

(** ** Primitive fields *)

(** vp8_header_structures.hh: Boolean / serializer.cc l.41-44. *)
Definition bool_decode (p : Z) : dec bool := bget p.
Definition bool_event (p : Z) (b : bool) : list event := [(b, p)].

(** vp8_header_structures.hh l.52-69: Unsigned<width>. The two operands of
    [|] in the constructor are evaluated left to right (the order is
    unspecified in C++; the serialiser fixes the intended one). *)
Fixpoint unsigned_decode (width : nat) : dec Z :=
  match width with
  | O => dret 0
  | S w => do b <- bget 128;
           do r <- unsigned_decode w;
           dret (Z.lor (Z.shiftl (if b : bool then 1 else 0) (Z.of_nat w)) r)
  end.

(** serializer.cc l.64-71. *)
Fixpoint unsigned_events (width : nat) (num : Z) : list event :=
  match width with
  | O => []
  | S w => (negb (Z.land num (Z.shiftl 1 (Z.of_nat w)) =? 0), 128) :: unsigned_events w num
  end.

(** vp8_header_structures.hh l.71-85: Signed<width> (again left to right). *)
Definition signed_decode (width : nat) : dec Z :=
  do v <- unsigned_decode width;
  do s <- bget 128;
  dret (v * (if s : bool then -1 else 1)).

(** serializer.cc l.73-79. *)
Definition signed_events (width : nat) (num : Z) : list event :=
  unsigned_events width (Z.abs num) ++ [(num <? 0, 128)].

(** vp8_header_structures.hh l.87-97: Flagged<T>. *)
Definition flagged_decode {A} (p : Z) (m : dec A) : dec (option A) :=
  do f <- bget p;
  if f : bool then (do a <- m; dret (Some a)) else dret None.

(** serializer.cc l.54-62. *)
Definition flagged_events {A} (p : Z) (w : A -> list event) (o : option A) : list event :=
  match o with
  | Some a => (true, p) :: w a
  | None => [(false, p)]
  end.

(** util/optional.hh constructor Optional( bool, args ): read only if the
    condition holds. *)
Definition optional_decode {A} (c : bool) (m : dec A) : dec (option A) :=
  if c then (do a <- m; dret (Some a)) else dret None.

(** serializer.cc l.46-52: an Optional is written only if initialised. *)
Definition optional_events {A} (w : A -> list event) (o : option A) : list event :=
  match o with
  | Some a => w a
  | None => []
  end.
