(** The assembled sum of absolute differences of 16x16 blocks. *)
From Verif Require Import Base RasterModel VarianceModel SimdModel.

(** movhlps as seen by instructions on dwords: the high half of the source to
    the low half of the destination. *)
Definition movhlps32 (a b : vec) : vec :=
  Vd [nth 2 (dwords b) 0; nth 3 (dwords b) 0; nth 2 (dwords a) 0; nth 3 (dwords a) 0].

(** sad_sse2.asm l.15-45 (SAD_FN 16, 16, 7, 0) and l.138-140. The registers are
    those of x86inc.asm for 64 bit Unix: src rdi, src_stride rsi, ref rdx,
    ref_stride rcx, src_stride3 r8, ref_stride3 r9, n_rows rax. The sign extension
    of the strides is the identity on [Int]. *)
Definition sad_entry : list instr :=
  [Arg rdi 0; Arg rsi 1; Arg rdx 2; Arg rcx 3; Lea r8 (Ix rsi rsi 2 0); Lea r9 (Ix rcx rcx 2 0);
   MovI rax 4; Un mov 0 (K (Vd [0; 0; 0; 0]))].
(** sad_sse2.asm l.142-165, without the average with a second prediction. psadbw
    with a memory operand demands alignment. *)
Definition sad_rows : list instr :=
  [Un mov 1 (M false 16 16 (At rdx 0)); Un mov 2 (M false 16 16 (Ix rdx rcx 1 0));
   Un mov 3 (M false 16 16 (Ix rdx rcx 2 0)); Un mov 4 (M false 16 16 (Ix rdx r9 1 0));
   Op psadbw 1 (M true 16 16 (At rdi 0)); Op psadbw 2 (M true 16 16 (Ix rdi rsi 1 0));
   Op psadbw 3 (M true 16 16 (Ix rdi rsi 2 0)); Op psadbw 4 (M true 16 16 (Ix rdi r8 1 0));
   Op paddd 1 (R 2); Op paddd 3 (R 4); Lea rdx (Ix rdx rcx 4 0);
   Op paddd 0 (R 1); Lea rdi (Ix rdi rsi 4 0); Op paddd 0 (R 3); AddI rax (-1)].
(** sad_sse2.asm l.167-169. *)
Definition sad_exit : list instr := [Op movhlps32 1 (R 0); Op paddd 0 (R 1); Movd rax 0].
Definition sad16x16 : list block := [Line sad_entry; Loop rax sad_rows; Line sad_exit].

(** variance.cc l.88-95: Encoder::sad of 16x16 blocks, src and ref by address
    and stride. The result is in eax. *)
Definition sad_sse2 (L : layout) (m : nat -> Z -> Z) (src : val) (ss : Z) (ref : val) (rs : Z) : option Z :=
  let? s := run_blocks 4 L [src; Int ss; ref; Int rs] sad16x16 (start m) in as_int (reg s rax).
