(** Shared basics: bytes, little-endian integers, list helpers. *)
From Coq Require Export ZArith List Bool Lia Arith.
From Coq Require Export ZifyBool ZifyNat.
Export ListNotations.
Open Scope Z_scope.

Ltac Zify.zify_post_hook ::= Z.div_mod_to_equations.

(** A byte (uint8_t). *)
Definition byte_ok (b : Z) : Prop := 0 <= b < 256.

(** A byte string. *)
Definition bytes_ok (l : list Z) : Prop := Forall byte_ok l.

(** Unsigned wrap-around to [k] bits (C++ conversion to / arithmetic in an
    unsigned type of [k] bits). *)
Definition wrap (k : Z) (x : Z) : Z := x mod 2 ^ k.

(** Length of a list as Z (size_t). *)
Definition zlen {A} (l : list A) : Z := Z.of_nat (length l).

(** Results of operations that may throw. *)
Inductive res (E A : Type) : Type :=
| Ok (a : A)
| Err (e : E).
Arguments Ok {E A} a.
Arguments Err {E A} e.

Definition rbind {E A B} (m : res E A) (f : A -> res E B) : res E B :=
  match m with
  | Ok a => f a
  | Err e => Err e
  end.

Notation "'let!' x := m 'in' k" := (rbind m (fun x => k))
  (at level 200, x pattern, m at level 100, k at level 200).
