(** The intra predictors as assembled when HAVE_SSE2 is set.  Sources:
    src/decoder/intrapred_sse2.asm l.13-801, src/decoder/intrapred_ssse3.asm
    l.22-341, and their callers in src/decoder/prediction.cc.  One entry of
    these lists is one instruction of the files, in the same order; an
    instruction with three operands is the copy and the operation that
    x86inc.asm makes of it.  GET_GOT and RESTORE_GOT are empty on x86-64.

    Arguments: dst, y_stride, above, left, in rdi, rsi, rdx and rcx; the fifth
    register of x86inc.asm is r8.  The predictors that the callers never use
    (d45, d63, 32x32) are left out. *)
From Verif Require Import Base TreeModel MVModel FrameModel RasterModel PredictModel VarianceModel SimdModel.

(** movhlps: the high half of the source to the low half of the destination. *)
Definition movhlps (a b : vec) : vec :=
  let k := grain 4 a b in mk k (skipn (8 / k) (lanes k b) ++ skipn (8 / k) (lanes k a)).
(** psrlq by [n] bytes: both halves. *)
Definition psrlq (n : nat) (v : vec) : vec :=
  let l := bytes v in Vb (skipn n (firstn 8 l) ++ repeat 0 n ++ skipn n (skipn 8 l) ++ repeat 0 n).
(** Three operands. *)
Definition Op3 (f : vec -> vec -> vec) (d a : nat) (s : src) : list instr := [Un mov d (R a); Op f d s].
(** pxor m1, m1. *)
Definition clear (d : nat) : instr := Un (fun _ => zeros 16) d (K (zeros 16)).

(** intrapred_sse2.asm l.14-22. *)
Definition pb_1 : vec := Vb (repeat 1 16).
Definition pw (z : Z) : vec := Vw (repeat z 8).
Definition dc_128 : vec := Vb (repeat 128 16).
(** intrapred_ssse3.asm l.22-23. *)
Definition sh_b32104567 : vec := Vb [3; 2; 1; 0; 4; 5; 6; 7; 0; 0; 0; 0; 0; 0; 0; 0].
Definition sh_b8091a2b345 : vec := Vb [8; 0; 9; 1; 10; 2; 11; 3; 4; 5; 0; 0; 0; 0; 0; 0].

(** The registers with their arguments. *)
Definition entry : list instr := [Arg rdi 0; Arg rsi 1; Arg rdx 2; Arg rcx 3].
Definition dst : addr := At rdi 0.
Definition dst1 : addr := Ix rdi rsi 1 0.                   (* dstq+strideq *)
Definition dst2 : addr := Ix rdi rsi 2 0.                   (* dstq+strideq*2 *)
Definition dst3 : addr := Ix rdi rdx 1 0.                   (* dstq+stride3q, stride3 in rdx *)
(** lea stride3q, [strideq*3] *)
Definition times3 (d : nat) : list instr := [MovI d 0; Lea d (Ix d rsi 3 0)].

(** l.36-42: X_PLUS_2Y_PLUS_Z_PLUS_2_RSH_2. *)
Definition avg3_of (x y z r : nat) : list instr :=
  Op3 pavgb r x (R z) ++ [Op pxor z (R x); Op pand z (K pb_1); Op psubb r (R z); Op pavgb r (R y)].

(** l.145-151 and the like: the same four bytes in four rows. *)
Definition four_rows4 : list instr :=
  [St false 4 dst 0; St false 4 dst1 0; Lea rdi dst2; St false 4 dst 0; St false 4 dst1 0].
(** l.213-221 and the like: the same eight bytes in eight rows. *)
Definition eight_rows8 : list instr :=
  [St false 8 dst 0; St false 8 dst1 0; St false 8 dst2 0; St false 8 dst3 0; Lea rdi (Ix rdi rsi 4 0);
   St false 8 dst 0; St false 8 dst1 0; St false 8 dst2 0; St false 8 dst3 0].
(** l.333-340 and the like: sixteen bytes in four rows; the loop runs four times. *)
Definition rows16 : list instr :=
  [St true 16 dst 0; St true 16 dst1 0; St true 16 dst2 0; St true 16 dst3 0; Lea rdi (Ix rdi rsi 4 0); AddI rcx (-1)].

(** l.137-155. *)
Definition dc_4 : list block := [Line (entry ++
  [Un mov 2 (M false 4 16 (At rcx 0)); Un mov 0 (M false 4 16 (At rdx 0)); clear 1;
   Op (punpckl 4) 0 (R 2); Op psadbw 0 (R 1); Op paddw 0 (K (pw 4)); Un (psraw 3) 0 (R 0);
   Un (pshuflw 0) 0 (R 0); Op packuswb 0 (R 0)] ++ four_rows4)].
(** l.159-176 ([left]) and l.180-196. *)
Definition dc_side_4 (left : bool) : list block := [Line (entry ++
  [clear 1; Un mov 0 (M false 4 16 (At (if left then rcx else rdx) 0));
   Op psadbw 0 (R 1); Op paddw 0 (K (pw 2)); Un (psraw 2) 0 (R 0);
   Un (pshuflw 0) 0 (R 0); Op packuswb 0 (R 0)] ++ four_rows4)].
(** l.282-292. *)
Definition dc_128_4 : list block := [Line (entry ++ times3 rdx ++
  [Un (fun v => Vb (firstn 4 (bytes v) ++ repeat 0 12)) 0 (K dc_128);
   St false 4 dst 0; St false 4 dst1 0; St false 4 dst2 0; St false 4 dst3 0])].
(** l.200-225. *)
Definition dc_8 : list block := [Line (entry ++
  [clear 1; Un mov 0 (M false 8 16 (At rdx 0)); Un mov 2 (M false 8 16 (At rcx 0))] ++ times3 rdx ++
  [Op psadbw 0 (R 1); Op psadbw 2 (R 1); Op paddw 0 (R 2); Op paddw 0 (K (pw 8)); Un (psraw 4) 0 (R 0);
   Op (punpckl 1) 0 (R 0); Un (pshuflw 0) 0 (R 0)] ++ eight_rows8)].
(** l.255-279 ([left]) and l.229-251. *)
Definition dc_side_8 (left : bool) : list block := [Line (entry ++
  [clear 1; Un mov 0 (M false 8 16 (At (if left then rcx else rdx) 0))] ++ times3 rdx ++
  [Op psadbw 0 (R 1); Op paddw 0 (K (pw 4)); Un (psraw 3) 0 (R 0);
   Op (punpckl 1) 0 (R 0); Un (pshuflw 0) 0 (R 0)] ++ eight_rows8)].
(** l.296-311. *)
Definition dc_128_8 : list block := [Line (entry ++ times3 rdx ++
  [Un (fun v => Vb (firstn 8 (bytes v) ++ repeat 0 8)) 0 (K dc_128)] ++ eight_rows8)].
(** l.315-344. *)
Definition dc_16 : list block := [Line (entry ++
  [clear 1; Un mov 0 (M true 16 16 (At rdx 0)); Un mov 2 (M true 16 16 (At rcx 0))] ++ times3 rdx ++
  [MovI rcx 4; Op psadbw 0 (R 1); Op psadbw 2 (R 1); Op paddw 0 (R 2); Op movhlps 2 (R 0); Op paddw 0 (R 2);
   Op paddw 0 (K (pw 16)); Un (psraw 5) 0 (R 0); Un (pshuflw 0) 0 (R 0); Op (punpckl 8) 0 (R 0); Op packuswb 0 (R 0)]);
  LoopNz rcx rows16].
(** l.377-403 ([left]) and l.348-374. *)
Definition dc_side_16 (left : bool) : list block := [Line (entry ++
  [clear 1; Un mov 0 (M true 16 16 (At (if left then rcx else rdx) 0))] ++ times3 rdx ++
  [MovI rcx 4; Op psadbw 0 (R 1); Op movhlps 2 (R 0); Op paddw 0 (R 2);
   Op paddw 0 (K (pw 8)); Un (psraw 4) 0 (R 0); Un (pshuflw 0) 0 (R 0); Op (punpckl 8) 0 (R 0); Op packuswb 0 (R 0)]);
  LoopNz rcx rows16].
(** l.406-422. *)
Definition dc_128_16 : list block := [Line (entry ++ times3 rdx ++ [MovI rcx 4; Un mov 0 (K dc_128)]); LoopNz rcx rows16].

(** l.563-570, l.573-586, l.589-602. *)
Definition v_4 : list block := [Line (entry ++ [Un mov 0 (M false 4 16 (At rdx 0))] ++ four_rows4)].
Definition v_8 : list block := [Line (entry ++ [Un mov 0 (M false 8 16 (At rdx 0))] ++ times3 rdx ++ eight_rows8)].
Definition v_16 : list block :=
  [Line (entry ++ [Un mov 0 (M true 16 16 (At rdx 0))] ++ times3 rdx ++ [MovI rcx 4]); LoopNz rcx rows16].

(** l.626-638. *)
Definition h_4 : list block := [Line (entry ++
  [Un mov 0 (M false 4 16 (At rcx 0)); Op (punpckl 1) 0 (R 0); Op (punpckl 1) 0 (R 0);
   Un (pshufd 1) 1 (R 0); St false 4 dst 0; St false 4 dst1 1; Un (pshufd 2) 2 (R 0);
   Lea rdi dst2; Un (pshufd 3) 3 (R 0); St false 4 dst 2; St false 4 dst1 3])].
(** l.642-661; line is in rdx, stride3 in r8. *)
Definition dst3' : addr := Ix rdi r8 1 0.
Definition h_8_rows : list instr :=
  [Un (pshuflw 0) 1 (R 0); Un (pshuflw 85) 2 (R 0); St false 8 dst 1; St false 8 dst1 2;
   Un (pshuflw 170) 1 (R 0); Un (pshuflw 255) 2 (R 0); St false 8 dst2 1; St false 8 dst3' 2;
   Un (pshufd 14) 0 (R 0); AddI rdx 1; Lea rdi (Ix rdi rsi 4 0)].
Definition h_8 : list block := [Line (entry ++ [MovI rdx (-2)] ++ times3 r8 ++
  [Un mov 0 (M false 8 16 (At rcx 0)); Op (punpckl 1) 0 (R 0)]); LoopNz rdx h_8_rows].
(** l.665-686. *)
Definition h_16_rows : list instr :=
  [Un mov 0 (M false 4 16 (At rcx 0)); Op (punpckl 1) 0 (R 0); Op (punpckl 1) 0 (R 0);
   Un (pshufd 0) 1 (R 0); Un (pshufd 85) 2 (R 0); St true 16 dst 1; St true 16 dst1 2;
   Un (pshufd 170) 1 (R 0); Un (pshufd 255) 2 (R 0); St true 16 dst2 1; St true 16 dst3' 2;
   AddI rdx 1; Lea rcx (At rcx 4); Lea rdi (Ix rdi rsi 4 0)].
Definition h_16 : list block := [Line (entry ++ [MovI rdx (-4)] ++ times3 r8); LoopNz rdx h_16_rows].

(** l.717-742. *)
Definition tm_4 : list block := [Line (entry ++
  [clear 1; Un mov 0 (M false 8 16 (At rdx (-1))); Op (punpckl 1) 0 (R 1); Un (pshuflw 0) 2 (R 0);
   Un (psrldq 2) 0 (R 0); Op psubw 0 (R 2); Un mov 2 (M false 4 16 (At rcx 0)); Op (punpckl 1) 2 (R 1);
   Un (pshuflw 0) 4 (R 2); Un (pshuflw 85) 3 (R 2); Op paddw 4 (R 0); Op paddw 3 (R 0);
   Op packuswb 4 (R 4); Op packuswb 3 (R 3); St false 4 dst 4; St false 4 dst1 3; Lea rdi dst2;
   Un (pshuflw 170) 4 (R 2); Un (pshuflw 255) 3 (R 2); Op paddw 4 (R 0); Op paddw 3 (R 0);
   Op packuswb 4 (R 4); Op packuswb 3 (R 3); St false 4 dst 4; St false 4 dst1 3])].
(** l.746-772. *)
Definition tm_8_rows : list instr :=
  [Un (pshuflw 0) 4 (R 2); Un (pshuflw 85) 3 (R 2); Op (punpckl 8) 4 (R 4); Op (punpckl 8) 3 (R 3);
   Op paddw 4 (R 0); Op paddw 3 (R 0); Op packuswb 4 (R 3); St false 8 dst 4; StHi dst1 4;
   Lea rdi dst2; Un (psrldq 4) 2 (R 2); AddI rdx 1].
Definition tm_8 : list block := [Line (entry ++
  [clear 1; Un mov 2 (M false 4 16 (At rdx (-1))); Un mov 0 (M false 8 16 (At rdx 0)); Op (punpckl 1) 2 (R 1);
   Op (punpckl 1) 0 (R 1); Un (pshuflw 0) 2 (R 2); MovI rdx (-4); Op (punpckl 8) 2 (R 2); Op psubw 0 (R 2);
   Un mov 2 (M false 8 16 (At rcx 0)); Op (punpckl 1) 2 (R 1)]); LoopNz rdx tm_8_rows].
(** l.776-811; stride8 is in r8. *)
Definition dst8 : addr := Ix rdi r8 1 0.
Definition tm_16_rows : list instr :=
  [Un (pshuflw 0) 6 (R 3); Un (pshuflw 0) 7 (R 5); Op (punpckl 8) 6 (R 6); Op (punpckl 8) 7 (R 7)] ++
  Op3 paddw 1 6 (R 0) ++ [Op paddw 6 (R 4); Un (psrldq 2) 5 (R 5); Op packuswb 1 (R 6); St true 16 dst 1] ++
  Op3 paddw 1 7 (R 0) ++ [Op paddw 7 (R 4); Un (psrldq 2) 3 (R 3); Op packuswb 1 (R 7); St true 16 dst8 1;
   AddI rdx 1; Lea rdi dst1].
Definition tm_16 : list block := [Line (entry ++
  [clear 1; Un mov 2 (M true 16 16 (At rdx (-16))); Un mov 0 (M true 16 16 (At rdx 0)); Op (punpckh 1) 2 (R 1)] ++
  Op3 (punpckh 1) 4 0 (R 1) ++
  [Op (punpckl 1) 0 (R 1); MovI rdx (-8); Un (pshufhw 255) 2 (R 2); Un mov 3 (M true 16 16 (At rcx 0));
   Op (punpckh 8) 2 (R 2); Op psubw 0 (R 2); Op psubw 4 (R 2)] ++
  Op3 (punpckh 1) 5 3 (R 1) ++
  [Op (punpckl 1) 3 (R 1); MovI r8 0; Lea r8 (Ix r8 rsi 8 0)]); LoopNz rdx tm_16_rows].

(** l.110-133: B_HU_PRED. *)
Definition d207_4 : list block := [Line (entry ++
  [Un mov 0 (M false 4 16 (At rcx 0))] ++ Op3 (punpckl 1) 4 0 (R 0) ++
  [Op (punpckl 2) 4 (R 4); Un (psrldq 12) 4 (R 4); Op (punpckl 4) 0 (R 4); Un (psrldq 1) 1 (R 0); Un (psrldq 2) 2 (R 0)] ++
  avg3_of 0 1 2 3 ++
  [Op pavgb 1 (R 0); Op (punpckl 1) 1 (R 3); St false 4 dst 1; Un (psrlq 2) 1 (R 1); St false 4 dst1 1;
   Lea rdi dst2; Un (psrlq 2) 1 (R 1); St false 4 dst 1; St false 4 dst1 4])].
(** intrapred_ssse3.asm l.313-341: B_HD_PRED. *)
Definition d153_4 : list block := [Line (entry ++
  [Un mov 0 (M false 4 16 (At rcx 0)); Un mov 1 (M false 4 16 (At rdx (-1))); Op (punpckl 4) 0 (R 1);
   Op pshufb 0 (K sh_b32104567); Un (psrldq 1) 1 (R 0); Un (psrldq 2) 2 (R 0)] ++
  avg3_of 0 1 2 3 ++
  [Op pavgb 1 (R 0); Op (punpckl 8) 3 (R 1)] ++ times3 rdx ++
  [Op pshufb 3 (K sh_b8091a2b345); St false 4 dst3 3; Un (psrldq 2) 3 (R 3); St false 4 dst2 3;
   Un (psrldq 2) 3 (R 3); St false 4 dst1 3; Un (psrldq 2) 3 (R 3); St false 4 dst 3])].

(** ** The callers *)

(** A choice by size. *)
Definition by_size {A} (size : Z) (x4 x8 x16 : A) : A := if size =? 4 then x4 else if size =? 8 then x8 else x16.
(** prediction.cc l.291-383: dc_predict_simple and dc_predict. *)
Definition dc_code (size column row : Z) : list block :=
  if negb (column =? 0) && negb (row =? 0) then by_size size dc_4 dc_8 dc_16
  else if 0 <? row then by_size size (dc_side_4 false) (dc_side_8 false) (dc_side_16 false)
  else if 0 <? column then by_size size (dc_side_4 true) (dc_side_8 true) (dc_side_16 true)
  else by_size size dc_128_4 dc_128_8 dc_128_16.
(** l.435-467 with the functions of l.169-281. *)
Definition block_code (size column row mode : Z) : option (list block) :=
  if mode =? DC_PRED then Some (dc_code size column row)
  else if mode =? V_PRED then Some (by_size size v_4 v_8 v_16)
  else if mode =? H_PRED then Some (by_size size h_4 h_8 h_16)
  else if mode =? TM_PRED then Some (by_size size tm_4 tm_8 tm_16)
  else None.
(** l.622-643 with those of l.169-301 and l.561-601; the other modes are not
    assembled. *)
Definition sub_code (mode : Z) : option (list block) :=
  if mode =? B_DC_PRED then Some dc_4
  else if mode =? B_TM_PRED then Some tm_4
  else if mode =? B_HD_PRED then Some d153_4
  else if mode =? B_HU_PRED then Some d207_4
  else None.

(** A call; [x] is what every vector register holds before. *)
Definition predictor_call (x : list Z) (L : layout) (code : list block) (d : nat) (o stride : Z) (a : nat) (l : nat)
  (m : nat -> Z -> Z) : option (nat -> Z -> Z) :=
  call_from (mkMachine (repeat (Int 0) 16) (repeat (Vb x) 24) m) 8 L [Ptr d o; Int stride; Ptr a 16; Ptr l 0] code.
