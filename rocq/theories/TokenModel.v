(** Coefficient tokens. Sources: src/decoder/tokens.hh, src/decoder/tokens.cc,
    src/encoder/serializer.cc l.445-453, l.595-739. *)
From Verif Require Import Base BoolCoderModel ParserModel.

(** block.hh l.44: enum BlockType. *)
Definition Y_after_Y2 := 0. Definition Y2_type := 1. Definition UV_type := 2. Definition Y_without_Y2 := 3.

(** tokens.hh l.54. *)
Definition coefficient_to_band : list Z := [0; 1; 2; 3; 6; 4; 5; 6; 6; 6; 6; 6; 6; 6; 6; 7].
(** tokens.hh l.55. *)
Definition zigzag : list Z := [0; 1; 4; 8; 5; 2; 3; 6; 9; 12; 13; 10; 7; 11; 14; 15].

Definition band_of (index : nat) : Z := nth index coefficient_to_band 0.
Definition zz (index : nat) : nat := Z.to_nat (nth index zigzag 0).

(** decoder.hh l.59-63: coeff_probs, flattened; index ((type*8+band)*3+context)*11+node. *)
Definition coeff_prob (tbl : list Z) (type band ctx node : Z) : Z :=
  nth (Z.to_nat (((type * 8 + band) * 3 + ctx) * 11 + node)) tbl 0.

(** tokens.hh l.57-78: TokenDecoder as base value and bit probabilities. *)
Definition token_decoder : Type := (Z * list Z)%type.
Definition token_decoder_1 : token_decoder := (7, [165; 145]).
Definition token_decoder_2 : token_decoder := (11, [173; 148; 140]).
Definition token_decoder_3 : token_decoder := (19, [176; 155; 140; 135]).
Definition token_decoder_4 : token_decoder := (35, [180; 157; 141; 134; 130]).
Definition token_decoder_5 : token_decoder := (67, [254; 254; 243; 230; 196; 177; 153; 140; 133; 130; 129]).

(** tokens.hh l.70-71. *)
Definition base_value (t : token_decoder) : Z := fst t.
Definition upper_limit (t : token_decoder) : Z := fst t + Z.shiftl 1 (zlen (snd t)).

(** tokens.cc l.37-45: TokenDecoder::decode, the loop over the bits. The
    16-bit increment cannot wrap (at most 11 bits), so no [wrap] here. *)
Fixpoint td_bits (probs : list Z) (increment : Z) : dec Z :=
  match probs with
  | [] => dret increment
  | p :: r => do b <- bget p;
              td_bits r (Z.shiftl increment 1 + (if b : bool then 1 else 0))
  end.
Definition td_decode (t : token_decoder) : dec Z :=
  do i <- td_bits (snd t) 0; dret (fst t + i).

(** serializer.cc l.445-453: TokenDecoder::encode. The [assert] on the base
    value is enforced by the caller's comparisons. *)
Fixpoint td_bit_events (probs : list Z) (increment : Z) : list event :=
  match probs with
  | [] => []
  | p :: r => (negb (Z.land increment (Z.shiftl 1 (zlen r)) =? 0), p) :: td_bit_events r increment
  end.
Definition td_events (t : token_decoder) (value : Z) : list event :=
  td_bit_events (snd t) (value - fst t).

(** ** Writer *)

(** serializer.cc l.602-609: coded_length. *)
Fixpoint coded_length_from (n : nat) (index : nat) (coefs : list Z) (acc : nat) : nat :=
  match n with
  | O => acc
  | S n' => coded_length_from n' (S index) coefs
              (if nth (zz index) coefs 0 =? 0 then acc else S index)
  end.
Definition first_index (type : Z) : nat := if type =? Y_after_Y2 then 1%nat else 0%nat.
Definition coded_length (type : Z) (coefs : list Z) : nat :=
  coded_length_from (16 - first_index type) (first_index type) coefs 0.

(** serializer.cc l.642-727: the bits of a non-zero coefficient, after the
    "not zero" bit, and the next context. [None]: internal_error "value too
    large". *)
Definition value_events (prob : Z -> Z) (coefficient : Z) : option (list event * Z) :=
  let v := Z.abs coefficient in
  let sign := [(coefficient <? 0, 128)] in
  if v =? 1 then Some ([(false, prob 2)] ++ sign, 1)
  else
    match
      (if v =? 2 then Some [(false, prob 3); (false, prob 4)]
       else if v =? 3 then Some [(false, prob 3); (true, prob 4); (false, prob 5)]
       else if v =? 4 then Some [(false, prob 3); (true, prob 4); (true, prob 5)]
       else
         option_map (cons (true, prob 3))
         (if v <? base_value token_decoder_1 then
            Some [(false, prob 6); (false, prob 7); (v =? 6, 159)]
          else if v <? upper_limit token_decoder_1 then
            Some ([(false, prob 6); (true, prob 7)] ++ td_events token_decoder_1 v)
          else
            option_map (cons (true, prob 6))
            (if v <? upper_limit token_decoder_2 then
               Some ([(false, prob 8); (false, prob 9)] ++ td_events token_decoder_2 v)
             else if v <? upper_limit token_decoder_3 then
               Some ([(false, prob 8); (true, prob 9)] ++ td_events token_decoder_3 v)
             else
               option_map (cons (true, prob 8))
               (if v <? upper_limit token_decoder_4 then
                  Some ([(false, prob 10)] ++ td_events token_decoder_4 v)
                else if v <? upper_limit token_decoder_5 then
                  Some ([(true, prob 10)] ++ td_events token_decoder_5 v)
                else None))))
    with
    | None => None
    | Some evs => Some ((true, prob 2) :: evs ++ sign, 2)
    end.

(** serializer.cc l.617-728: the loop. [n] is coded_length - index. Returns
    the events, the final context and last_was_zero. [tbl type] gives the
    probabilities by band, context and node. *)
Fixpoint ser_loop (prob : Z -> Z -> Z -> Z) (coefs : list Z) (n index : nat) (ctx : Z) (lwz : bool)
  : option (list event * Z * bool) :=
  match n with
  | O => Some ([], ctx, lwz)
  | S n' =>
      let c := nth (zz index) coefs 0 in
      let p := prob (band_of index) ctx in
      let e0 := if lwz then [] else [(true, p 0)] in
      if c =? 0 then
        match ser_loop prob coefs n' (S index) 0 true with
        | None => None
        | Some (evs, ctx', lwz') => Some (e0 ++ [(false, p 1)] ++ evs, ctx', lwz')
        end
      else
        match value_events p c with
        | None => None
        | Some (ve, ctx1) =>
            match ser_loop prob coefs n' (S index) ctx1 false with
            | None => None
            | Some (evs, ctx', lwz') => Some (e0 ++ [(true, p 1)] ++ ve ++ evs, ctx', lwz')
            end
        end
  end.

(** serializer.cc l.595-739: Block::serialize_tokens. [ctx0] is the number of
    neighbours (above, left) with non-zero coefficients. [None]: exception or
    failed assertion. *)
Definition serialize_tokens (prob : Z -> Z -> Z -> Z) (type : Z) (ctx0 : Z) (coefs : list Z) : option (list event) :=
  let len := coded_length type coefs in
  let start := first_index type in
  match ser_loop prob coefs (len - start) start ctx0 false with
  | None => None
  | Some (evs, ctx, lwz) =>
      if lwz then None (* assert( last_was_zero == false ) *)
      else if (len <? 16)%nat then Some (evs ++ [(false, prob (band_of (Nat.max len start)) ctx 0)])
      else Some evs
  end.

(** ** Parser *)

(** tokens.cc l.85-125: the magnitude of a non-zero coefficient and the next
    context. *)
Definition value_decode (prob : Z -> Z) : dec (Z * Z) :=
  do b2 <- bget (prob 2);
  if negb b2 then dret (1, 1)
  else
    do v <-
      (do b3 <- bget (prob 3);
       if negb b3 then
         (do b4 <- bget (prob 4);
          if negb b4 then dret 2
          else (do b5 <- bget (prob 5);
                if negb b5 then dret 3 else dret 4))
       else
         (do b6 <- bget (prob 6);
          if negb b6 then
            (do b7 <- bget (prob 7);
             if negb b7 then (do b <- bget 159; dret (5 + (if b : bool then 1 else 0)))
             else td_decode token_decoder_1)
          else
            (do b8 <- bget (prob 8);
             if negb b8 then
               (do b9 <- bget (prob 9);
                if negb b9 then td_decode token_decoder_2 else td_decode token_decoder_3)
             else
               (do b10 <- bget (prob 10);
                if negb b10 then td_decode token_decoder_4 else td_decode token_decoder_5))));
    dret (v, 2).

Fixpoint list_set (l : list Z) (i : nat) (v : Z) : list Z :=
  match l, i with
  | [], _ => []
  | _ :: r, O => v :: r
  | x :: r, S i' => x :: list_set r i' v
  end.

(** tokens.cc l.61-134: the loop; [n] is 16 - index. The value is stored as
    int16_t ([wrap]ping cannot occur: magnitude at most 2114). *)
Fixpoint parse_loop (prob : Z -> Z -> Z -> Z) (n index : nat) (ctx : Z) (lwz : bool) (coefs : list Z) (nz : bool)
  : dec (list Z * bool) :=
  match n with
  | O => dret (coefs, nz)
  | S n' =>
      let p := prob (band_of index) ctx in
      do more <- (if lwz then dret true else bget (p 0));
      if negb more then dret (coefs, nz)
      else
        do b1 <- bget (p 1);
        if negb b1 then parse_loop prob n' (S index) 0 true coefs nz
        else
          do vc <- value_decode p;
          do s <- bget 128;
          let value := if s : bool then - (fst vc) else fst vc in
          parse_loop prob n' (S index) (snd vc) false (list_set coefs (zz index) value) true
  end.

(** tokens.cc l.50-135: Block::parse_tokens on a block with the given previous
    contents. *)
Definition parse_tokens (prob : Z -> Z -> Z -> Z) (type : Z) (ctx0 : Z) (coefs : list Z) (nz : bool)
  : dec (list Z * bool) :=
  let start := first_index type in
  parse_loop prob (16 - start) start ctx0 false coefs nz.
