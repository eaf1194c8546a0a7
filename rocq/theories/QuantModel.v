(** Dequantisation. Sources: src/decoder/quantization.cc, quantization.hh,
    src/decoder/frame.cc l.184-206. *)
From Verif Require Import Base HeaderModel MVModel.

(** quantization.cc l.42-52. *)
Definition dc_qlookup : list Z :=
  [4; 5; 6; 7; 8; 9; 10; 10; 11; 12; 13; 14; 15; 16; 17; 17; 18; 19; 20; 20; 21; 21; 22; 22; 23; 23;
   24; 25; 25; 26; 27; 28; 29; 30; 31; 32; 33; 34; 35; 36; 37; 37; 38; 39; 40; 41; 42; 43; 44; 45; 46;
   46; 47; 48; 49; 50; 51; 52; 53; 54; 55; 56; 57; 58; 59; 60; 61; 62; 63; 64; 65; 66; 67; 68; 69; 70;
   71; 72; 73; 74; 75; 76; 76; 77; 78; 79; 80; 81; 82; 83; 84; 85; 86; 87; 88; 89; 91; 93; 95; 96; 98;
   100; 101; 102; 104; 106; 108; 110; 112; 114; 116; 118; 122; 124; 126; 128; 130; 132; 134; 136; 138;
   140; 143; 145; 148; 151; 154; 157].

(** quantization.cc l.54-64. *)
Definition ac_qlookup : list Z :=
  [4; 5; 6; 7; 8; 9; 10; 11; 12; 13; 14; 15; 16; 17; 18; 19; 20; 21; 22; 23; 24; 25; 26; 27; 28; 29;
   30; 31; 32; 33; 34; 35; 36; 37; 38; 39; 40; 41; 42; 43; 44; 45; 46; 47; 48; 49; 50; 51; 52; 53; 54;
   55; 56; 57; 58; 60; 62; 64; 66; 68; 70; 72; 74; 76; 78; 80; 82; 84; 86; 88; 90; 92; 94; 96; 98;
   100; 102; 104; 106; 108; 110; 112; 114; 116; 119; 122; 125; 128; 131; 134; 137; 140; 143; 146; 149;
   152; 155; 158; 161; 164; 167; 170; 173; 177; 181; 185; 189; 193; 197; 201; 205; 209; 213; 217; 221;
   225; 229; 234; 239; 245; 249; 254; 259; 264; 269; 274; 279; 284].

(** quantization.cc l.66-72; the argument is converted to int16_t. *)
Definition clamp_q (q : Z) : Z :=
  let q := s16 q in
  if q <? 0 then 0 else if 127 <? q then 127 else q.

(** SafeArray::at, util/safe_array.hh: an assertion in debug builds, undefined
    otherwise. *)
Definition at_ (l : list Z) (i : Z) : option Z :=
  if i <? 0 then None else nth_error l (Z.to_nat i).

(** quantization.hh l.37-50; all fields uint16_t. *)
Record Quantizer : Type := mkQ {
  q_y_ac : Z; q_y_dc : Z; q_y2_ac : Z; q_y2_dc : Z; q_uv_ac : Z; q_uv_dc : Z
}.

Definition get_or0 (o : option Z) : Z := match o with Some x => x | None => 0 end.

(** quantization.cc l.83-94. *)
Definition make_quantizer (qi : QuantIndices) : option Quantizer :=
  let look tbl d := at_ tbl (clamp_q (y_ac_qi qi + d)) in
  match look ac_qlookup 0, look dc_qlookup (get_or0 (y_dc qi)), look ac_qlookup (get_or0 (y2_ac qi)),
        look dc_qlookup (get_or0 (y2_dc qi)), look ac_qlookup (get_or0 (uv_ac qi)), look dc_qlookup (get_or0 (uv_dc qi))
  with
  | Some ya, Some yd, Some y2a, Some y2d, Some ua, Some ud =>
      let y2a := wrap 16 (y2a * 155 / 100) in
      let y2d := wrap 16 (y2d * 2) in
      Some (mkQ ya yd (if y2a <? 8 then 8 else y2a) y2d ua (if 132 <? ud then 132 else ud))
  | _, _, _, _, _, _ => None
  end.

(** frame.cc l.194-200: the index of a segment. y_ac_qi is an Unsigned<7>,
    which holds a uint8_t (vp8_header_structures.hh l.53-66): the sum is
    converted to 8 bits. *)
Definition segment_q_index (absolute : bool) (adjustment base : Z) : Z :=
  wrap 8 (adjustment + (if absolute then 0 else base)).
Definition segment_indices (absolute : bool) (adjustment : Z) (qi : QuantIndices) : QuantIndices :=
  mkQI (segment_q_index absolute adjustment (y_ac_qi qi)) (y_dc qi) (y2_dc qi) (y2_ac qi) (uv_dc qi) (uv_ac qi).

(** quantization.cc l.96-128 (the portable branch; the other one multiplies
    modulo 2^16, which is the same). *)
Definition dequantize (dc ac : Z) (c : list Z) : list Z :=
  match c with
  | [] => []
  | c0 :: r => s16 (c0 * dc) :: map (fun x => s16 (x * ac)) r
  end.

(** quantization.cc l.152-161: the encoder's direction, C++ division. [None]:
    division by zero. *)
Definition quantize (dc ac : Z) (c : list Z) : option (list Z) :=
  match c with
  | [] => Some []
  | c0 :: r => if (dc =? 0) || (ac =? 0) then None
               else Some (s16 (Z.quot c0 dc) :: map (fun x => s16 (Z.quot x ac)) r)
  end.
