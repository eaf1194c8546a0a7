(** The transforms as assembled when HAVE_SSE2 is set.  Sources:
    src/decoder/iwalsh_sse2.asm, idctllm_mmx.asm, fwalsh_sse2.asm,
    subtract_sse2.asm, dct_sse2.asm, and quantization.cc l.97-117.  One line
    of these lists is one instruction of the file, in the same order. *)
From Verif Require Import Base MVModel FrameModel RasterModel VarianceModel SimdModel.

(** iwalsh_sse2.asm l.15-121: vp8_short_inv_walsh4x4_sse2( input, output ).
    The sixteen results go to output + 32 * i, the DC coefficients of
    consecutive blocks. *)
Definition iwalsh_arith : list instr := [
  Un (pshufd 78) 2 (R 1); Un mov 3 (R 0);                                    (* l.30 *)
  Op paddw 0 (R 2); Op psubw 3 (R 2);
  Un mov 4 (R 0); Op (punpckl 8) 0 (R 3); Op (punpckh 8) 4 (R 3);
  Un mov 1 (R 4); Op paddw 4 (R 0); Op psubw 0 (R 1);
  Un mov 3 (R 4); Op (punpckl 2) 4 (R 0); Op (punpckh 2) 3 (R 0);            (* l.49 *)
  Un mov 1 (R 4); Op (punpckl 2) 4 (R 3); Op (punpckh 2) 1 (R 3);
  MovdTo 0 rax; Un (pshufd 78) 2 (R 1); Un mov 3 (R 4);                      (* l.56 *)
  Un (pshufd 0) 0 (R 0);
  Op paddw 4 (R 2); Op psubw 3 (R 2);
  Un mov 5 (R 4); Op (punpckl 8) 4 (R 3); Op (punpckh 8) 5 (R 3);
  Un mov 1 (R 5); Op paddw 5 (R 4); Op psubw 4 (R 1);
  Op paddw 5 (R 0); Op paddw 4 (R 0); Un (psraw 3) 5 (R 5); Un (psraw 3) 4 (R 4)].
(** l.79-87 and its repetitions: two words of xmm5 and two of xmm4. *)
Definition iwalsh_out (a b c d : Z) : list instr := [
  StW (At rdx (32 * a)) rax; StW (At rdx (32 * b)) rcx; Shr rax 16; Shr rcx 16;
  StW (At rdx (32 * c)) rax; StW (At rdx (32 * d)) rcx].
Definition iwalsh_next : list instr := [Un (psrldq 4) 5 (R 5); Un (psrldq 4) 4 (R 4)].
Definition iwalsh : list block := [Line (
  [Arg rcx 0; Arg rdx 1; MovI rax 196611;                                    (* l.22-24 *)
   Un mov 0 (M true 16 16 (At rcx 0)); Un mov 1 (M true 16 16 (At rcx 16))] ++
  iwalsh_arith ++
  [Movd rax 5; Movd rcx 4] ++ iwalsh_next ++ iwalsh_out 0 2 4 6 ++
  [Movd rax 5; Movd rcx 4] ++ iwalsh_next ++ iwalsh_out 8 10 12 14 ++
  [Movd rax 5; Movd rcx 4] ++ iwalsh_next ++ iwalsh_out 1 3 5 7 ++
  [Movd rax 5; Movd rcx 4] ++ iwalsh_out 9 11 13 15)].

(** idctllm_mmx.asm l.286-295. *)
Definition x_s1sqr2 : vec := Vw (repeat (-30068) 4).       (* 0x8A8C *)
Definition x_c1sqr2less1 : vec := Vw (repeat 20091 4).     (* 0x4E7B *)
Definition fours : vec := Vw (repeat 4 4).

(** l.67-94 and again l.124-148: the sums before the last four. *)
Definition idct_half : list instr := [
  Op psubw (mm 0) (R (mm 2)); Op paddw (mm 2) (R (mm 2));
  Un mov (mm 5) (R (mm 1)); Op paddw (mm 2) (R (mm 0));
  Op pmulhw (mm 5) (K x_s1sqr2); Op paddw (mm 5) (R (mm 1));
  Un mov (mm 7) (R (mm 3)); Op pmulhw (mm 7) (K x_c1sqr2less1);
  Op paddw (mm 7) (R (mm 3)); Op psubw (mm 7) (R (mm 5));
  Un mov (mm 5) (R (mm 1)); Un mov (mm 4) (R (mm 3));
  Op pmulhw (mm 5) (K x_c1sqr2less1); Op paddw (mm 5) (R (mm 1));
  Op pmulhw (mm 3) (K x_s1sqr2); Op paddw (mm 3) (R (mm 4));
  Op paddw (mm 3) (R (mm 5))].
(** l.94-102, l.150-157. *)
Definition idct_sums : list instr := [
  Un mov (mm 6) (R (mm 2));
  Un mov (mm 4) (R (mm 0)); Op paddw (mm 2) (R (mm 3));
  Op paddw (mm 4) (R (mm 7)); Op psubw (mm 0) (R (mm 7));
  Op psubw (mm 6) (R (mm 3))].
(** l.104-120, l.166-182: the transposition. *)
Definition idct_transpose : list instr := [
  Un mov (mm 1) (R (mm 2)); Un mov (mm 3) (R (mm 4));
  Op (punpckl 2) (mm 1) (R (mm 0)); Op (punpckh 2) (mm 2) (R (mm 0));
  Op (punpckl 2) (mm 3) (R (mm 6)); Op (punpckh 2) (mm 4) (R (mm 6));
  Un mov (mm 0) (R (mm 1)); Un mov (mm 5) (R (mm 2));
  Op (punpckl 4) (mm 0) (R (mm 3)); Op (punpckh 4) (mm 1) (R (mm 3));
  Op (punpckl 4) (mm 2) (R (mm 4)); Op (punpckh 4) (mm 5) (R (mm 4))].
Definition idct_round : list instr := [                                      (* l.159-164 *)
  Un (psraw 3) (mm 2) (R (mm 2)); Un (psraw 3) (mm 0) (R (mm 0)); Un (psraw 3) (mm 4) (R (mm 4));
  Un (psraw 3) (mm 6) (R (mm 6))].
Definition idct_arith : list instr :=
  idct_half ++ idct_sums ++ idct_transpose ++
  [Un mov (mm 3) (R (mm 5))] ++                                              (* l.122 *)
  idct_half ++ [Op paddw (mm 0) (K fours); Op paddw (mm 2) (K fours)] ++     (* l.147-149 *)
  idct_sums ++ idct_round ++ idct_transpose ++
  [Un (fun _ => zeros 8) (mm 7) (K (zeros 8))].                              (* l.184: pxor mm7, mm7 *)
(** l.186-190: add one row and store it. *)
Definition idct_row (r : nat) (p d : addr) : list instr := [
  Un mov (mm 4) (M false 4 8 p); Op (punpckl 1) (mm 4) (R (mm 7)); Op paddsw (mm r) (R (mm 4));
  Op packuswb (mm r) (R (mm 7)); St false 4 d (mm r)].
(** l.37-219: vp8_short_idct4x4llm_mmx( input, pred, pitch, dest, stride ). *)
Definition idctllm : list block := [Line (
  [Arg rax 0; Arg rsi 1;
   Un mov (mm 0) (M false 8 8 (At rax 0)); Un mov (mm 1) (M false 8 8 (At rax 8));
   Un mov (mm 2) (M false 8 8 (At rax 16)); Un mov (mm 3) (M false 8 8 (At rax 24));
   Arg rax 2; Arg rdx 3; Arg rdi 4] ++
  idct_arith ++
  idct_row 0 (At rsi 0) (At rdx 0) ++
  idct_row 1 (Ix rsi rax 1 0) (Ix rdx rdi 1 0) ++
  idct_row 2 (Ix rsi rax 2 0) (Ix rdx rdi 2 0) ++
  [AddR rdx rdi; AddR rsi rax] ++
  idct_row 5 (Ix rsi rax 2 0) (Ix rdx rdi 2 0))].

(** fwalsh_sse2.asm l.152-164. *)
Definition c1 : vec := Vw (repeat 1 8).
Definition cn1 : vec := Vw [1; -1; 1; -1; 1; -1; 1; -1].
Definition cd1 : vec := Vd (repeat 1 4).
Definition cd3 : vec := Vd (repeat 3 4).

(** l.36-65: the first loop. *)
Definition fwalsh_rows : list instr := [
  Op (punpckl 2) 0 (R 1); Op (punpckl 2) 2 (R 3);
  Un mov 1 (R 0); Op (punpckl 4) 0 (R 2); Op (punpckh 4) 1 (R 2);
  Un mov 2 (R 0); Op paddw 0 (R 1); Op psubw 2 (R 1);
  Un (psllw 2) 0 (R 0); Un (psllw 2) 2 (R 2);
  Un mov 1 (R 0); Op (punpckl 8) 0 (R 2); Op (punpckh 8) 1 (R 2);
  Un (fun _ => zeros 16) 6 (K (zeros 16)); Un movq 6 (R 0);
  Un (fun _ => zeros 16) 7 (K (zeros 16)); Op pcmpeqw 7 (R 6); Op paddw 7 (K c1);
  Un mov 2 (R 0); Op paddw 0 (R 1); Op psubw 2 (R 1); Op paddw 0 (R 7)].
(** l.73-140: the second loop. *)
Definition fwalsh_columns : list instr := [
  Un (pshuflw 216) 3 (R 0); Un (pshufhw 216) 0 (R 3); Un (pshuflw 216) 3 (R 2); Un (pshufhw 216) 1 (R 3);
  Un mov 2 (R 0); Op pmaddwd 0 (K c1); Op pmaddwd 2 (K cn1);
  Un mov 3 (R 1); Op pmaddwd 1 (K c1); Op pmaddwd 3 (K cn1);
  Un (pshufd 216) 4 (R 0); Un (pshufd 216) 5 (R 2); Un (pshufd 114) 6 (R 1); Un (pshufd 114) 7 (R 3);
  Un mov 0 (R 4); Op (punpckl 8) 0 (R 5); Op (punpckh 8) 4 (R 5);
  Un mov 1 (R 6); Op (punpckl 8) 1 (R 7); Op (punpckh 8) 6 (R 7);
  Un mov 2 (R 0); Op paddd 0 (R 4); Op psubd 2 (R 4);
  Un mov 3 (R 1); Op paddd 1 (R 6); Op psubd 3 (R 6);
  Un (fun _ => zeros 16) 4 (K (zeros 16)); Un mov 5 (R 4); Op pcmpgtd 4 (R 0); Op pcmpgtd 5 (R 2);
  Op pand 4 (K cd1); Op pand 5 (K cd1);
  Un (fun _ => zeros 16) 6 (K (zeros 16)); Un mov 7 (R 6); Op pcmpgtd 6 (R 1); Op pcmpgtd 7 (R 3);
  Op pand 6 (K cd1); Op pand 7 (K cd1);
  Op paddd 0 (R 4); Op paddd 2 (R 5); Op paddd 0 (K cd3); Op paddd 2 (K cd3);
  Op paddd 1 (R 6); Op paddd 3 (R 7); Op paddd 1 (K cd3); Op paddd 3 (K cd3);
  Un (psrad 3) 0 (R 0); Un (psrad 3) 1 (R 1); Un (psrad 3) 2 (R 2); Un (psrad 3) 3 (R 3);
  Un mov 4 (R 0); Op (punpckl 8) 0 (R 1); Op (punpckh 8) 4 (R 1);
  Un mov 5 (R 2); Op (punpckh 8) 2 (R 3); Op (punpckl 8) 5 (R 3);
  Op packssdw 0 (R 4); Op packssdw 2 (R 5)].
(** l.15-150: vp8_short_walsh4x4_sse2( input, output, pitch ). *)
Definition fwalsh : list block := [Line (
  [Arg rsi 0; Arg rdi 1; Arg rdx 2;
   Un mov 0 (M false 8 16 (At rsi 0)); Un mov 1 (M false 8 16 (Ix rsi rdx 1 0));
   Lea rsi (Ix rsi rdx 2 0);
   Un mov 2 (M false 8 16 (At rsi 0)); Un mov 3 (M false 8 16 (Ix rsi rdx 1 0))] ++
  fwalsh_rows ++ fwalsh_columns ++
  [St true 16 (At rdi 0) 0; St true 16 (At rdi 16) 2])].

(** subtract_sse2.asm l.20-28, l.117-127, for cols = 4: vpx_subtract_block_sse2
    ( rows, cols, diff, diff_stride, src, src_stride, pred, pred_stride ).  Two
    rows per round in mm0-mm3.  The register that l.25 clears is xmm7: the code
    up to l.116 stands after INIT_XMM (l.20).  The branch for four columns
    stands after INIT_MMX (l.117), where m7 is mm7 (x86inc.asm l.980-1001). *)
Definition subtract4 : list block := [
  Line [Arg rax 0; Arg rdx 2; Arg rcx 3; Arg r8 4; Arg r9 5; Arg rsi 6; Arg rdi 7;
        Un (fun _ => zeros 16) 7 (K (zeros 16))];
  Loop rax [
    Un mov (mm 0) (M false 4 8 (At r8 0)); Un mov (mm 2) (M false 4 8 (Ix r8 r9 1 0));
    Un mov (mm 1) (M false 4 8 (At rsi 0)); Un mov (mm 3) (M false 4 8 (Ix rsi rdi 1 0));
    Op (punpckl 1) (mm 0) (R (mm 7)); Op (punpckl 1) (mm 1) (R (mm 7));
    Op (punpckl 1) (mm 2) (R (mm 7)); Op (punpckl 1) (mm 3) (R (mm 7));
    Op psubw (mm 0) (R (mm 1)); Op psubw (mm 2) (R (mm 3));
    St false 8 (At rdx 0) (mm 0); St false 8 (Ix rdx rcx 2 0) (mm 2);
    Lea rdx (Ix rdx rcx 4 0); Lea r8 (Ix r8 r9 2 0); Lea rsi (Ix rsi rdi 2 0);
    AddI rax (-2)]].

(** dct_sse2.asm l.374-432. *)
Definition k5352_2217 : vec := Vw [5352; 2217; 5352; 2217; 5352; 2217; 5352; 2217].
Definition k2217_neg5352 : vec := Vw [2217; -5352; 2217; -5352; 2217; -5352; 2217; -5352].
Definition mult_add : vec := Vw (repeat 1 8).
Definition mult_sub : vec := Vw [1; -1; 1; -1; 1; -1; 1; -1].
Definition cmp_mask : vec := Vw [1; 1; 1; 1; 0; 0; 0; 0].
Definition k7 : vec := Vd (repeat 7 4).
Definition k14500 : vec := Vd (repeat 14500 4).
Definition k7500 : vec := Vd (repeat 7500 4).
Definition k12000 : vec := Vd (repeat 12000 4).
Definition k51000 : vec := Vd (repeat 51000 4).

(** l.74-110: the first stage. *)
Definition fdct_rows : list instr := [
  Op (punpckl 8) 0 (R 2); Op (punpckl 8) 1 (R 3);
  Un mov 2 (R 0); Op (punpckl 4) 0 (R 1); Op (punpckh 4) 2 (R 1);
  Un mov 1 (R 0); Op (punpckl 4) 0 (R 2);
  Un (pshufhw 177) 1 (R 1); Un (pshufhw 177) 2 (R 2);
  Op (punpckh 4) 1 (R 2);
  Un mov 3 (R 0); Op paddw 0 (R 1); Op psubw 3 (R 1);
  Un (psllw 3) 0 (R 0); Un (psllw 3) 3 (R 3);
  Un mov 1 (R 0); Op pmaddwd 0 (K mult_add); Op pmaddwd 1 (K mult_sub);
  Un mov 4 (R 3); Op pmaddwd 3 (K k5352_2217); Op pmaddwd 4 (K k2217_neg5352);
  Op paddd 3 (K k14500); Op paddd 4 (K k7500); Un (psrad 12) 3 (R 3); Un (psrad 12) 4 (R 4);
  Op packssdw 0 (R 1); Op packssdw 3 (R 4)].
(** l.114-167: the transposition and the second stage. *)
Definition fdct_columns : list instr := [
  Un mov 2 (R 0); Op (punpckl 8) 0 (R 3); Op (punpckh 8) 2 (R 3);
  Un mov 3 (R 0); Op (punpckl 2) 0 (R 2); Op (punpckh 2) 3 (R 2);
  Un mov 2 (R 0); Op (punpckl 2) 0 (R 3); Op (punpckh 2) 2 (R 3);
  Un mov 5 (K k7); Un (pshufd 78) 2 (R 2);
  Un mov 3 (R 0); Op paddw 0 (R 2); Op psubw 3 (R 2);
  Un (pshufd 216) 0 (R 0); Un mov 2 (R 3); Un (pshufd 216) 3 (R 3);
  Un (pshuflw 216) 0 (R 0); Un (pshuflw 216) 3 (R 3); Un (pshufhw 216) 0 (R 0); Un (pshufhw 216) 3 (R 3);
  Un mov 1 (R 0); Op pmaddwd 0 (K mult_add); Op pmaddwd 1 (K mult_sub);
  Un (fun _ => zeros 16) 4 (K (zeros 16)); Op paddd 0 (R 5); Op paddd 1 (R 5); Op pcmpeqw 2 (R 4);
  Un (psrad 4) 0 (R 0); Un (psrad 4) 1 (R 1); Op pandn 2 (K cmp_mask);
  Un mov 4 (R 3); Op pmaddwd 3 (K k5352_2217); Op pmaddwd 4 (K k2217_neg5352);
  Op paddd 3 (K k12000); Op paddd 4 (K k51000);
  Op packssdw 0 (R 1); Un (psrad 16) 3 (R 3); Un (psrad 16) 4 (R 4);
  Op packssdw 3 (R 4); Un mov 1 (R 0); Op paddw 3 (R 2);
  Op (punpckl 8) 0 (R 3); Op (punpckh 8) 1 (R 3)].
(** l.64-166: vp8_short_fdct4x4_sse2( input, output, pitch ). *)
Definition fdct4x4 : list block := [Line (
  [Arg rdi 0; Arg rsi 1; Arg rdx 2;
   Un mov 0 (M false 8 16 (At rdi 0)); Un mov 2 (M false 8 16 (Ix rdi rdx 1 0));
   Lea rdi (Ix rdi rdx 2 0);
   Un mov 1 (M false 8 16 (At rdi 0)); Un mov 3 (M false 8 16 (Ix rdi rdx 1 0))] ++
  fdct_rows ++ fdct_columns ++
  [St true 16 (At rsi 0) 0; St true 16 (At rsi 16) 1])].

(** quantization.cc l.97-117: DCTCoefficients::dequantize with the intrinsics.
    [coefficients] is at arg(0), new_coefficients at arg(1). *)
Definition dequantize_sse2 (first second : Z) : list block :=
  let q0 := s16 first in let q1 := s16 second in [Line [
  Arg rsi 0; Arg rdi 1;
  Un mov 0 (M false 16 16 (At rsi 0)); Un mov 1 (M false 16 16 (At rsi 16));
  Un mov 2 (K (Vw [q0; q1; q1; q1; q1; q1; q1; q1])); Un mov 3 (K (Vw (repeat q1 8)));
  Op pmullw 0 (R 2); Op pmullw 1 (R 3);
  St true 16 (At rdi 0) 0; St true 16 (At rdi 16) 1]].
