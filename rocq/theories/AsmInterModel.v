(** The interpolation filters as assembled when HAVE_SSE2 is set.  Source:
    src/decoder/subpixel_ssse3.asm l.29-873 and l.1450-1497, and their callers
    in src/decoder/prediction.cc.  One entry of these lists is one instruction
    of the file, in the same order.

    The instructions that find the row of the tables from the filter index
    (for example l.47-54) are replaced by [table]: the loads from [rax],
    [rax + 128] and [rax + 256] are constants.  The comparison of the first
    four bytes of the row with zero (l.58-59) is [four_taps].  The bilinear
    functions of the file are not called anywhere. *)
From Verif Require Import Base MVModel FrameModel RasterModel PredictModel VarianceModel SimdModel.

(** l.1452-1468. *)
Definition shuf1b : vec := Vb [0; 5; 1; 6; 2; 7; 3; 8; 4; 9; 5; 10; 6; 11; 7; 12].
Definition shuf2b : vec := Vb [2; 4; 3; 5; 4; 6; 5; 7; 6; 8; 7; 9; 8; 10; 9; 11].
Definition shuf3b : vec := Vb [1; 3; 2; 4; 3; 5; 4; 6; 5; 7; 6; 8; 7; 9; 8; 10].
Definition shuf2bfrom1 : vec := Vb [4; 8; 6; 1; 8; 3; 1; 5; 3; 7; 5; 9; 7; 11; 9; 13].
Definition shuf3bfrom1 : vec := Vb [2; 6; 4; 8; 6; 1; 8; 3; 1; 5; 3; 7; 5; 9; 7; 11].
Definition rd : vec := Vw (repeat 64 8).
Definition rd4 : vec := Vw (repeat 64 4).                  (* its low half *)

(** l.1471-1497: the pairs that each row repeats eight times. *)
Definition k0_k5 : list (Z * Z) := [(0, 0); (0, 0); (2, 1); (0, 0); (3, 3); (0, 0); (1, 2); (0, 0)].
Definition k1_k3 : list (Z * Z) := [(0, 0); (-6, 12); (-11, 36); (-9, 50); (-16, 77); (-6, 93); (-8, 108); (-1, 123)].
Definition k2_k4 : list (Z * Z) := [(128, 0); (123, -1); (108, -8); (93, -6); (77, -16); (50, -9); (36, -11); (12, -6)].
Definition pair_at (t : list (Z * Z)) (i : Z) : Z * Z := nth (Z.to_nat i) t (0, 0).
(** [n] pairs of bytes. *)
Definition taps_vec (n : nat) (p : Z * Z) : vec := Vb (concat (repeat [lo8 (fst p); lo8 (snd p)] n)).
Definition four_taps (i : Z) : bool := let p := pair_at k0_k5 i in (lo8 (fst p) =? 0) && (lo8 (snd p) =? 0).

(** ** Horizontal filters.  Arguments: src_ptr, src_pixels_per_line,
    output_ptr, output_pitch, output_height. *)

(** l.52-104: vp8_filter_block1d8_h6_ssse3. *)
Definition h8_six_row : list instr := [
  Un mov 0 (M false 8 16 (At rsi (-2)));                                     (* l.73 *)
  Un mov 2 (M false 8 16 (At rsi 3));
  Op (punpckl 1) 0 (R 2);
  Un mov 1 (R 0); Op pmaddubsw 0 (R 4);
  Un mov 2 (R 1); Op pshufb 1 (K shuf2bfrom1);
  Op pshufb 2 (K shuf3bfrom1); Op pmaddubsw 1 (R 5);
  Lea rdi (Ix rdi rdx 1 0); Op pmaddubsw 2 (R 6);
  Lea rsi (Ix rsi rax 1 0); AddI rcx (-1);
  Op paddsw 0 (R 1); Op paddsw 2 (R 7);
  Op paddsw 0 (R 2);
  Un (psraw 7) 0 (R 0);
  Op packuswb 0 (R 0);
  St false 8 (At rdi 0) 0].                                                  (* l.103 *)
Definition h8_six (k05 k13 k24 : Z * Z) : list block := [
  Line [Un mov 7 (K rd); Arg rdi 2;
        Un mov 4 (K (taps_vec 8 k05)); Un mov 5 (K (taps_vec 8 k24)); Un mov 6 (K (taps_vec 8 k13));
        Arg rsi 0; Arg rax 1; Arg rcx 4; Arg rdx 3;
        Neg rdx; AddR rdi rdx; Neg rdx];                                     (* l.70: sub rdi, rdx *)
  LoopNz rcx h8_six_row].
(** l.115-161: vp8_filter_block1d8_h4_ssse3. *)
Definition h8_four_row : list instr := [
  Un mov 0 (M false 8 16 (At rsi (-2)));                                     (* l.132 *)
  Un mov 1 (M false 8 16 (At rsi 3));
  Op (punpckl 1) 0 (R 1);
  Un mov 2 (R 0); Op pshufb 0 (R 3);
  Op pshufb 2 (R 4); Op pmaddubsw 0 (R 5);
  Lea rdi (Ix rdi rdx 1 0); Op pmaddubsw 2 (R 6);
  Lea rsi (Ix rsi rax 1 0); AddI rcx (-1);
  Op paddsw 0 (R 7);
  Op paddsw 0 (R 2);
  Un (psraw 7) 0 (R 0);
  Op packuswb 0 (R 0);
  St false 8 (At rdi 0) 0].
Definition h8_four (k13 k24 : Z * Z) : list block := [
  Line [Un mov 7 (K rd); Arg rdi 2;
        Un mov 5 (K (taps_vec 8 k24)); Un mov 6 (K (taps_vec 8 k13));
        Un mov 3 (K shuf2bfrom1); Un mov 4 (K shuf3bfrom1);
        Arg rsi 0; Arg rax 1; Arg rcx 4; Arg rdx 3;
        Neg rdx; AddR rdi rdx; Neg rdx];
  LoopNz rcx h8_four_row].

(** l.189-268: vp8_filter_block1d16_h6_ssse3; there is no shorter path for four
    taps. *)
Definition h16_row : list instr := [
  Un mov 0 (M false 8 16 (At rsi (-2)));                                     (* l.211 *)
  Un mov 3 (M false 8 16 (At rsi 3));
  Op (punpckl 1) 0 (R 3);
  Un mov 1 (R 0); Op pmaddubsw 0 (R 4);
  Un mov 2 (R 1); Op pshufb 1 (K shuf2bfrom1);
  Op pshufb 2 (K shuf3bfrom1); Un mov 3 (M false 8 16 (At rsi 6));
  Op pmaddubsw 1 (R 5); Un mov 7 (M false 8 16 (At rsi 11));
  Op pmaddubsw 2 (R 6); Op (punpckl 1) 3 (R 7);
  Op paddsw 0 (R 1);
  Un mov 1 (R 3); Op pmaddubsw 3 (R 4);
  Op paddsw 0 (R 2); Un mov 2 (R 1);
  Op paddsw 0 (K rd); Op pshufb 1 (K shuf2bfrom1);
  Op pshufb 2 (K shuf3bfrom1); Un (psraw 7) 0 (R 0);
  Op pmaddubsw 1 (R 5); Op pmaddubsw 2 (R 6);
  Op packuswb 0 (R 0);
  Lea rsi (Ix rsi rax 1 0);
  Op paddsw 3 (R 1); Op paddsw 3 (R 2);
  Op paddsw 3 (K rd); Un (psraw 7) 3 (R 3);
  Op packuswb 3 (R 3); Op (punpckl 8) 0 (R 3);
  St true 16 (At rdi 0) 0;
  Lea rdi (Ix rdi rdx 1 0); AddI rcx (-1)].
Definition h16 (k05 k13 k24 : Z * Z) : list block := [
  Line [Arg rdi 2; Arg rsi 0;
        Un mov 4 (K (taps_vec 8 k05)); Un mov 5 (K (taps_vec 8 k24)); Un mov 6 (K (taps_vec 8 k13));
        Arg rax 1; Arg rcx 4; Arg rdx 3];
  LoopNz rcx h16_row].

(** l.290-353: vp8_filter_block1d4_h6_ssse3. *)
Definition h4_six_row : list instr := [
  Un mov 0 (M false 16 16 (At rsi (-2)));                                    (* l.321 *)
  Un mov 1 (R 0); Op pshufb 0 (K shuf1b);
  Un mov 2 (R 1); Op pshufb 1 (K shuf2b);
  Op pmaddubsw 0 (R 4); Op pshufb 2 (K shuf3b);
  Op pmaddubsw 1 (R 5);
  Op pmaddubsw 2 (R 6);
  Lea rsi (Ix rsi rax 1 0);
  Op paddsw 0 (R 1); Op paddsw 0 (R 7);
  Un (fun _ => zeros 16) 1 (K (zeros 16));                                   (* pxor xmm1, xmm1 *)
  Op paddsw 0 (R 2);
  Un (psraw 7) 0 (R 0);
  Op packuswb 0 (R 0);
  St false 4 (At rdi 0) 0;
  AddR rdi rdx; AddI rcx (-1)].
Definition h4_six (k05 k13 k24 : Z * Z) : list block := [
  Line [Un mov 7 (K rd);
        Un mov 4 (K (taps_vec 8 k05)); Un mov 5 (K (taps_vec 8 k24)); Un mov 6 (K (taps_vec 8 k13));
        Arg rsi 0; Arg rdi 2; Arg rax 1; Arg rcx 4; Arg rdx 3];
  LoopNz rcx h4_six_row].
(** l.364-398: .vp8_filter_block1d4_h4_ssse3. *)
Definition h4_four_row : list instr := [
  Un mov 1 (M false 16 16 (At rsi (-2)));
  Un mov 2 (R 1); Op pshufb 1 (R 0);
  Op pshufb 2 (R 3); Op pmaddubsw 1 (R 5);
  Op pmaddubsw 2 (R 6);
  Lea rsi (Ix rsi rax 1 0);
  Op paddsw 1 (R 7); Op paddsw 1 (R 2);
  Un (psraw 7) 1 (R 1);
  Op packuswb 1 (R 1);
  St false 4 (At rdi 0) 1;
  AddR rdi rdx; AddI rcx (-1)].
Definition h4_four (k13 k24 : Z * Z) : list block := [
  Line [Un mov 7 (K rd);
        Un mov 5 (K (taps_vec 8 k24)); Un mov 6 (K (taps_vec 8 k13));
        Un mov 0 (K shuf2b); Un mov 3 (K shuf3b);
        Arg rsi 0; Arg rdi 2; Arg rax 1; Arg rcx 4; Arg rdx 3];
  LoopNz rcx h4_four_row].

(** ** Vertical filters.  src_ptr points two rows above the first output row. *)

(** l.428-521: vp8_filter_block1d16_v6_ssse3. *)
Definition v16_six_row : list instr := [
  Un mov 1 (M false 8 16 (At rsi 0));                                        (* l.455: A *)
  Un mov 2 (M false 8 16 (Ix rsi rdx 1 0));                                  (* B *)
  Un mov 3 (M false 8 16 (Ix rsi rdx 2 0));                                  (* C *)
  Un mov 4 (M false 8 16 (Ix rax rdx 2 0));                                  (* D *)
  Un mov 0 (M false 8 16 (Ix rsi rdx 4 0));                                  (* E *)
  Op (punpckl 1) 2 (R 4);
  Op (punpckl 1) 3 (R 0);
  Un mov 0 (M false 8 16 (Ix rax rdx 4 0));                                  (* F *)
  Op pmaddubsw 3 (R 6);
  Op (punpckl 1) 1 (R 0);
  Op pmaddubsw 2 (R 7);
  Op pmaddubsw 1 (R 5);
  Op paddsw 2 (R 3);
  Op paddsw 2 (R 1);
  Op paddsw 2 (K rd);
  Un (psraw 7) 2 (R 2);
  Op packuswb 2 (R 2);
  St false 8 (At rdi 0) 2;
  Un mov 1 (M false 8 16 (At rsi 8));                                        (* l.479 *)
  Un mov 2 (M false 8 16 (Ix rsi rdx 1 8));
  Un mov 3 (M false 8 16 (Ix rsi rdx 2 8));
  Un mov 4 (M false 8 16 (Ix rax rdx 2 8));
  Un mov 0 (M false 8 16 (Ix rsi rdx 4 8));
  Op (punpckl 1) 2 (R 4);
  Op (punpckl 1) 3 (R 0);
  Un mov 0 (M false 8 16 (Ix rax rdx 4 8));
  Op pmaddubsw 3 (R 6);
  Op (punpckl 1) 1 (R 0);
  Op pmaddubsw 2 (R 7);
  Op pmaddubsw 1 (R 5);
  AddR rsi rdx;
  AddR rax rdx;
  Op paddsw 2 (R 3);
  Op paddsw 2 (R 1);
  Op paddsw 2 (K rd);
  Un (psraw 7) 2 (R 2);
  Op packuswb 2 (R 2);
  St false 8 (At rdi 8) 2;
  AddR rdi r8;
  AddI rcx (-1)].
Definition v16_six (k05 k13 k24 : Z * Z) : list block := [
  Line [Un mov 5 (K (taps_vec 8 k05)); Un mov 6 (K (taps_vec 8 k24)); Un mov 7 (K (taps_vec 8 k13));
        Arg rsi 0; Arg rdx 1; Arg rdi 2; Arg r8 3; MovR rax rsi; Arg rcx 4; AddR rax rdx];
  LoopNz rcx v16_six_row].
(** l.523-594. *)
Definition v16_four_row : list instr := [
  Un mov 2 (M false 8 16 (Ix rsi rdx 1 0));                                  (* l.539: B *)
  Un mov 3 (M false 8 16 (Ix rsi rdx 2 0));                                  (* C *)
  Un mov 4 (M false 8 16 (Ix rax rdx 2 0));                                  (* D *)
  Un mov 0 (M false 8 16 (Ix rsi rdx 4 0));                                  (* E *)
  Op (punpckl 1) 2 (R 4);
  Op (punpckl 1) 3 (R 0);
  Op pmaddubsw 3 (R 6);
  Op pmaddubsw 2 (R 7);
  Un mov 5 (M false 8 16 (Ix rsi rdx 1 8));
  Un mov 1 (M false 8 16 (Ix rsi rdx 2 8));
  Un mov 4 (M false 8 16 (Ix rax rdx 2 8));
  Un mov 0 (M false 8 16 (Ix rsi rdx 4 8));
  Op paddsw 2 (K rd);
  Op paddsw 2 (R 3);
  Un (psraw 7) 2 (R 2);
  Op packuswb 2 (R 2);
  Op (punpckl 1) 5 (R 4);
  Op (punpckl 1) 1 (R 0);
  Op pmaddubsw 1 (R 6);
  Op pmaddubsw 5 (R 7);
  Un mov 4 (K rd);
  AddR rsi rdx;
  AddR rax rdx;
  Op paddsw 5 (R 1);
  Op paddsw 5 (R 4);
  Un (psraw 7) 5 (R 5);
  Op packuswb 5 (R 5);
  Op (punpckl 8) 2 (R 5);
  St true 16 (At rdi 0) 2;
  AddR rdi r8;
  AddI rcx (-1)].
Definition v16_four (k13 k24 : Z * Z) : list block := [
  Line [Un mov 6 (K (taps_vec 8 k24)); Un mov 7 (K (taps_vec 8 k13));
        Arg rsi 0; Arg rdx 1; Arg rdi 2; Arg r8 3; MovR rax rsi; Arg rcx 4; AddR rax rdx];
  LoopNz rcx v16_four_row].

(** l.616-686: vp8_filter_block1d8_v6_ssse3. *)
Definition v8_six_row : list instr := [
  Un mov 1 (M false 8 16 (At rsi 0));                                        (* l.643: A *)
  Un mov 2 (M false 8 16 (Ix rsi rdx 1 0));                                  (* B *)
  Un mov 3 (M false 8 16 (Ix rsi rdx 2 0));                                  (* C *)
  Un mov 4 (M false 8 16 (Ix rax rdx 2 0));                                  (* D *)
  Un mov 0 (M false 8 16 (Ix rsi rdx 4 0));                                  (* E *)
  Op (punpckl 1) 2 (R 4);
  Op (punpckl 1) 3 (R 0);
  Un mov 0 (M false 8 16 (Ix rax rdx 4 0));                                  (* F *)
  Un mov 4 (K rd);
  Op pmaddubsw 3 (R 6);
  Op (punpckl 1) 1 (R 0);
  Op pmaddubsw 2 (R 7);
  Op pmaddubsw 1 (R 5);
  AddR rsi rdx;
  AddR rax rdx;
  Op paddsw 2 (R 3);
  Op paddsw 2 (R 1);
  Op paddsw 2 (R 4);
  Un (psraw 7) 2 (R 2);
  Op packuswb 2 (R 2);
  St false 8 (At rdi 0) 2;
  AddR rdi r8;
  AddI rcx (-1)].
Definition v8_six (k05 k13 k24 : Z * Z) : list block := [
  Line [Arg rdx 1; Arg rdi 2; Arg r8 3; Arg rcx 4;
        Un mov 5 (K (taps_vec 8 k05)); Un mov 6 (K (taps_vec 8 k24)); Un mov 7 (K (taps_vec 8 k13));
        Arg rsi 0; MovR rax rsi; AddR rax rdx];
  LoopNz rcx v8_six_row].
(** l.688-735. *)
Definition v8_four_row : list instr := [
  Un mov 2 (M false 8 16 (Ix rsi rdx 1 0));                                  (* l.699: B *)
  Un mov 3 (M false 8 16 (Ix rsi rdx 2 0));                                  (* C *)
  Un mov 4 (M false 8 16 (Ix rax rdx 2 0));                                  (* D *)
  Un mov 0 (M false 8 16 (Ix rsi rdx 4 0));                                  (* E *)
  Op (punpckl 1) 2 (R 4);
  Op (punpckl 1) 3 (R 0);
  Op pmaddubsw 3 (R 6);
  Op pmaddubsw 2 (R 7);
  AddR rsi rdx;
  AddR rax rdx;
  Op paddsw 2 (R 3);
  Op paddsw 2 (R 5);
  Un (psraw 7) 2 (R 2);
  Op packuswb 2 (R 2);
  St false 8 (At rdi 0) 2;
  AddR rdi r8;
  AddI rcx (-1)].
Definition v8_four (k13 k24 : Z * Z) : list block := [
  Line [Arg rdx 1; Arg rdi 2; Arg r8 3; Arg rcx 4;
        Un mov 6 (K (taps_vec 8 k24)); Un mov 7 (K (taps_vec 8 k13)); Un mov 5 (K rd);
        Arg rsi 0; MovR rax rsi; AddR rax rdx];
  LoopNz rcx v8_four_row].

(** l.755-825: vp8_filter_block1d4_v6_ssse3, on MMX registers. *)
Definition v4_six_row : list instr := [
  Un mov (mm 1) (M false 4 8 (At rsi 0));                                    (* l.782: A *)
  Un mov (mm 2) (M false 4 8 (Ix rsi rdx 1 0));                              (* B *)
  Un mov (mm 3) (M false 4 8 (Ix rsi rdx 2 0));                              (* C *)
  Un mov (mm 4) (M false 4 8 (Ix rax rdx 2 0));                              (* D *)
  Un mov (mm 0) (M false 4 8 (Ix rsi rdx 4 0));                              (* E *)
  Op (punpckl 1) (mm 2) (R (mm 4));
  Op (punpckl 1) (mm 3) (R (mm 0));
  Un mov (mm 0) (M false 4 8 (Ix rax rdx 4 0));                              (* F *)
  Un mov (mm 4) (K rd4);
  Op pmaddubsw (mm 3) (R (mm 6));
  Op (punpckl 1) (mm 1) (R (mm 0));
  Op pmaddubsw (mm 2) (R (mm 7));
  Op pmaddubsw (mm 1) (R (mm 5));
  AddR rsi rdx;
  AddR rax rdx;
  Op paddsw (mm 2) (R (mm 3));
  Op paddsw (mm 2) (R (mm 1));
  Op paddsw (mm 2) (R (mm 4));
  Un (psraw 7) (mm 2) (R (mm 2));
  Op packuswb (mm 2) (R (mm 2));
  St false 4 (At rdi 0) (mm 2);
  AddR rdi r8;
  AddI rcx (-1)].
Definition v4_six (k05 k13 k24 : Z * Z) : list block := [
  Line [Arg rdx 1; Arg rdi 2; Arg r8 3; Arg rcx 4;
        Un mov (mm 5) (K (taps_vec 4 k05)); Un mov (mm 6) (K (taps_vec 4 k24)); Un mov (mm 7) (K (taps_vec 4 k13));
        Arg rsi 0; MovR rax rsi; AddR rax rdx];
  LoopNz rcx v4_six_row].
(** l.827-873. *)
Definition v4_four_row : list instr := [
  Un mov (mm 2) (M false 4 8 (Ix rsi rdx 1 0));                              (* l.838: B *)
  Un mov (mm 3) (M false 4 8 (Ix rsi rdx 2 0));                              (* C *)
  Un mov (mm 4) (M false 4 8 (Ix rax rdx 2 0));                              (* D *)
  Un mov (mm 0) (M false 4 8 (Ix rsi rdx 4 0));                              (* E *)
  Op (punpckl 1) (mm 2) (R (mm 4));
  Op (punpckl 1) (mm 3) (R (mm 0));
  Op pmaddubsw (mm 3) (R (mm 6));
  Op pmaddubsw (mm 2) (R (mm 7));
  AddR rsi rdx;
  AddR rax rdx;
  Op paddsw (mm 2) (R (mm 3));
  Op paddsw (mm 2) (R (mm 5));
  Un (psraw 7) (mm 2) (R (mm 2));
  Op packuswb (mm 2) (R (mm 2));
  St false 4 (At rdi 0) (mm 2);
  AddR rdi r8;
  AddI rcx (-1)].
Definition v4_four (k13 k24 : Z * Z) : list block := [
  Line [Arg rdx 1; Arg rdi 2; Arg r8 3; Arg rcx 4;
        Un mov (mm 6) (K (taps_vec 4 k24)); Un mov (mm 7) (K (taps_vec 4 k13)); Un mov (mm 5) (K rd4);
        Arg rsi 0; MovR rax rsi; AddR rax rdx];
  LoopNz rcx v4_four_row].

(** ** The callers *)

(** prediction.cc l.738-774: Block<size>::sse_horiz_inter_predict. *)
Definition horizontal (size i : Z) : list block :=
  let k05 := pair_at k0_k5 i in let k13 := pair_at k1_k3 i in let k24 := pair_at k2_k4 i in
  if size =? 4 then if four_taps i then h4_four k13 k24 else h4_six k05 k13 k24
  else if size =? 8 then if four_taps i then h8_four k13 k24 else h8_six k05 k13 k24
  else h16 k05 k13 k24.
(** l.776-809: Block<size>::sse_vert_inter_predict. *)
Definition vertical (size i : Z) : list block :=
  let k05 := pair_at k0_k5 i in let k13 := pair_at k1_k3 i in let k24 := pair_at k2_k4 i in
  if size =? 4 then if four_taps i then v4_four k13 k24 else v4_six k05 k13 k24
  else if size =? 8 then if four_taps i then v8_four k13 k24 else v8_six k05 k13 k24
  else if four_taps i then v16_four k13 k24 else v16_six k05 k13 k24.

(** A filter called with unsigned arguments (below 2^31, so that movsxd keeps
    them). *)
Definition filter (L : layout) (code : list block) (src : val) (src_stride : Z) (dst : val) (dst_pitch height : Z)
  (m : nat -> Z -> Z) : option (nat -> Z -> Z) :=
  call (Z.to_nat height) L [src; Int src_stride; dst; Int dst_pitch; Int height] code m.

(** memcpy of [size] bytes for each of the rows from [r] on (l.825-833,
    l.696-704). *)
Fixpoint copy_rows (n : nat) (L : layout) (size : Z) (s : nat) (so ss : Z) (d : nat) (o pitch : Z) (m : nat -> Z -> Z) : option (nat -> Z -> Z) :=
  match n with
  | O => Some m
  | S k =>
      let? row := load L false (Z.to_nat size) m (Ptr s so) in
      let? m' := store L false row m (Ptr d o) in
      copy_rows k L size s (so + ss) ss d (o + pitch) pitch m'
  end.

(** l.813-858 with HAVE_SSE2, and l.682-729 from [mx] on: [so] is the offset of
    reference.at( source_column, source_row ), [o] that of output.at( 0, 0 );
    [t] is the segment of the array intermediate, which is 16-aligned and has
    (size + 8)^2 bytes. *)
Definition sse_inter_predict (L : layout) (size mx my : Z) (s : nat) (so ss : Z) (d : nat) (o ds : Z) (t : nat)
  (m : nat -> Z -> Z) : option (nat -> Z -> Z) :=
  if (mx =? 0) && (my =? 0) then copy_rows (Z.to_nat size) L size s so ss d o ds m
  else if negb (mx =? 0) then
    if negb (my =? 0) then
      let? m1 := filter L (horizontal size mx) (Ptr s (so - 2 * ss)) ss (Ptr t 0) size (size + 5) m in
      filter L (vertical size my) (Ptr t 0) size (Ptr d o) ds size m1
    else filter L (horizontal size mx) (Ptr s so) ss (Ptr d o) ds size m
  else filter L (vertical size my) (Ptr s (so - 2 * ss)) ss (Ptr d o) ds size m.
