(** The vector code of the loop filter across horizontal edges, without that for
    the inner edges of luma (loopfilter_block_sse2_x86_64.asm).
    Source: src/decoder/loopfilter_sse2.asm, called from
    src/decoder/loopfilter.cc l.242-264 and l.369-401.  The machine is that of
    SimdModel.v; pxor of a register with itself is a load of zeros, and
    ALIGN_STACK with the subtraction of lf_var_size leaves an aligned pointer
    to 160 bytes in rsp. *)
From Verif Require Import Base MVModel RasterModel VarianceModel SimdModel.

(** Constants: l.1611-1640. *)
Definition tb (c : Z) : vec := Vb (repeat c 16).
Definition tw (c : Z) : vec := Vw (repeat c 8).

(** movdqa xmm, [a] and movdqa [a], xmm. *)
Definition ld (d : nat) (a : addr) : instr := Un mov d (M true 16 16 a).
Definition sto (a : addr) (s : nat) : instr := St true 16 a s.
Definition cp (d s : nat) : instr := Un mov d (R s).
Definition zero (d : nat) : instr := Un mov d (K (zeros 16)).

(** loopfilter_sse2.asm l.13-23: offsets from rsp. *)
Definition t0_ := At rsp 0.
Definition t1_ := At rsp 16.
Definition p2_ := At rsp 48.
Definition p1_ := At rsp 64.
Definition q1_ := At rsp 112.
Definition q2_ := At rsp 128.
Definition lf_var_size : Z := 160.

(** ** LFH_FILTER_AND_HEV_MASK, l.28-174 *)

(** l.29-51: the four rows below the edge. *)
Definition lfh_below (y : bool) : list instr :=
  if y then
    [ld 2 (Ix rdi rax 2 0); ld 1 (Ix rsi rax 2 0); ld 4 (Ix rsi rax 1 0); ld 5 (At rsi 0); Neg rax]
  else
    [LdLo 2 (Ix rsi rcx 2 0); LdLo 1 (Ix rsi rcx 1 0); LdLo 4 (At rsi 0); LdLo 5 (Ix rsi rax 1 0);
     LdHi 2 (Ix rdi rcx 2 0); LdHi 1 (Ix rdi rcx 1 0); LdHi 4 (At rdi 0); LdHi 5 (Ix rdi rax 1 0);
     Lea rsi (Ix rsi rax 4 0); Lea rdi (Ix rdi rax 4 0);
     sto q2_ 1; sto q1_ 4].
(** l.52-75. *)
Definition lfh_1 : list instr :=
  [ld 7 (At rdx 0);
   cp 6 1; cp 3 4;
   Op psubusb 1 (R 2); Op psubusb 2 (R 6);
   Op psubusb 4 (R 6); Op psubusb 6 (R 3);
   Op por 4 (R 6); Op por 1 (R 2);
   cp 0 5; Op pmaxub 1 (R 4);
   Op psubusb 5 (R 3); Op psubusb 3 (R 0);
   Op por 5 (R 3); sto t0_ 5;
   Op pmaxub 1 (R 5)].
(** l.77-92: three rows above it. *)
Definition lfh_above (y : bool) : list instr :=
  if y then
    [ld 2 (Ix rsi rax 4 0); ld 4 (Ix rdi rax 4 0); ld 6 (Ix rsi rax 2 0)]
  else
    [LdLo 2 (Ix rsi rax 1 0); LdLo 4 (At rsi 0); LdLo 6 (Ix rsi rcx 1 0);
     LdHi 2 (Ix rdi rax 1 0); LdHi 4 (At rdi 0); LdHi 6 (Ix rdi rcx 1 0);
     sto p2_ 4; sto p1_ 6].
(** l.94-109. *)
Definition lfh_2 : list instr :=
  [cp 5 4; cp 3 6;
   Op psubusb 4 (R 2); Op psubusb 2 (R 5);
   Op psubusb 3 (R 5); Op pmaxub 1 (R 4);
   Op psubusb 5 (R 6); Op pmaxub 1 (R 2);
   Op pmaxub 1 (R 5); cp 2 6;
   Op pmaxub 1 (R 3)].
(** l.110-117: the row above the edge, and the second one below it again. *)
Definition lfh_middle (y : bool) : list instr :=
  if y then [ld 4 (Ix rsi rax 1 0); ld 3 (At rdi 0)]
  else [LdLo 4 (Ix rsi rcx 2 0); LdHi 4 (Ix rdi rcx 2 0); ld 3 q1_].
(** l.119-173. *)
Definition lfh_3 : list instr :=
  [cp 5 4; Op psubusb 4 (R 6);
   Op psubusb 6 (R 5);
   Op por 6 (R 4); Arg rdx 2;
   sto t1_ 6;
   cp 4 3; Op pmaxub 1 (R 6);
   Op psubusb 3 (R 2); Op psubusb 2 (R 4);
   Op psubusb 1 (R 7); Op por 2 (R 3);
   ld 7 (At rdx 0); Arg rdx 4;
   cp 3 0; Op pand 2 (K (tb 254));
   cp 6 5; Un (psrlw 1) 2 (R 2);
   Op psubusb 5 (R 3); Op psubusb 3 (R 6);
   Op por 5 (R 3);
   Op paddusb 5 (R 5);
   ld 4 t0_; ld 3 t1_;
   Op paddusb 5 (R 2);
   ld 2 (At rdx 0);
   Op psubusb 5 (R 7); Op psubusb 4 (R 2);
   Op psubusb 3 (R 2); Op por 1 (R 5);
   zero 7; Op paddb 4 (R 3);
   Op pcmpeqb 4 (R 5); Op pcmpeqb 3 (R 3);
   Op pcmpeqb 1 (R 7); Op pxor 4 (R 3)].
Definition lfh (y : bool) : list instr := lfh_below y ++ lfh_1 ++ lfh_above y ++ lfh_2 ++ lfh_middle y ++ lfh_3.

(** ** B_FILTER 0, l.176-277 *)
Definition b_filter : list instr :=
  [Un mov 3 (K (tb 128)); ld 2 p1_; ld 7 q1_;
   Op pxor 2 (R 3); Op pxor 7 (R 3);
   Op psubsb 2 (R 7); Op pxor 6 (R 3);
   Op pand 2 (R 4); Op pxor 0 (R 3);
   cp 3 0; Op psubsb 0 (R 6);
   Op paddsb 2 (R 0); Op paddsb 2 (R 0); Op paddsb 2 (R 0);
   Op pand 1 (R 2);
   cp 2 1; Op paddsb 1 (K (tb 4)); Op paddsb 2 (K (tb 3));
   Op (punpckh 1) 5 (R 2); Op (punpckl 1) 2 (R 2);
   Op (punpckl 1) 0 (R 1); Un (psraw 11) 5 (R 5);
   Op (punpckh 1) 1 (R 1); Un (psraw 11) 2 (R 2);
   Op packsswb 2 (R 5); Un (psraw 11) 0 (R 0);
   Un (psraw 11) 1 (R 1); cp 5 0;
   Op packsswb 0 (R 1);
   Op paddsb 6 (R 2);
   Un mov 2 (K (tw 1)); Op paddsw 5 (R 2); Op paddsw 1 (R 2);
   Un (psraw 1) 5 (R 5); Un (psraw 1) 1 (R 1);
   Op packsswb 5 (R 1); Un mov 2 (K (tb 128));
   ld 1 p1_; Lea rsi (Ix rsi rcx 2 0); Lea rdi (Ix rdi rcx 2 0);
   Op pandn 4 (R 5); Op pxor 6 (R 2);
   Op pxor 1 (R 2); Op psubsb 3 (R 0);
   Op paddsb 1 (R 4); Op pxor 3 (R 2);
   Op pxor 1 (R 2); Op psubsb 7 (R 4);
   Op pxor 7 (R 2);
   St false 8 (At rsi 0) 6; StHi (At rdi 0) 6;
   St false 8 (Ix rsi rax 1 0) 1; StHi (Ix rdi rax 1 0) 1;
   St false 8 (Ix rsi rcx 1 0) 3; StHi (Ix rdi rcx 1 0) 3;
   St false 8 (Ix rsi rcx 2 0) 7; StHi (Ix rdi rcx 2 0) 7].

(** ** MB_FILTER_AND_WRITEBACK, l.379-553 *)

(** l.380-389. *)
Definition mb_outer (y : bool) : list instr :=
  Un mov 3 (K (tb 128)) ::
  (if y then [ld 2 (Ix rsi rax 2 0); ld 7 (At rdi 0); MovR rcx rax; Neg rcx]
   else [ld 2 p1_; ld 7 q1_]).
(** l.397-480. *)
Definition mb_taps : list instr :=
  [Op pxor 2 (R 3); Op pxor 7 (R 3); Op pxor 6 (R 3); Op pxor 0 (R 3);
   Op psubsb 2 (R 7);
   cp 3 0; Op psubsb 0 (R 6);
   Op paddsb 2 (R 0); Op paddsb 2 (R 0); Op paddsb 2 (R 0);
   Op pand 1 (R 2);
   cp 2 1;
   Op pand 2 (R 4); zero 0;
   Op pandn 4 (R 1); zero 1;
   Op (punpckl 1) 0 (R 4); Op (punpckh 1) 1 (R 4);
   cp 5 2;
   Un mov 4 (K (tw 2304)); Op paddsb 5 (K (tb 3)); Op paddsb 2 (K (tb 4));
   Op pmulhw 1 (R 4); Op pmulhw 0 (R 4);
   Op (punpckh 1) 7 (R 5); Op (punpckl 1) 5 (R 5);
   Un (psraw 11) 7 (R 7);
   Un (psraw 11) 5 (R 5); Op (punpckh 1) 4 (R 2);
   Op (punpckl 1) 2 (R 2); Un (psraw 11) 4 (R 4);
   Op packsswb 5 (R 7); Un (psraw 11) 2 (R 2);
   Op packsswb 2 (R 4);
   Op paddsb 6 (R 5);
   Op psubsb 3 (R 2); cp 7 1;
   Un mov 4 (K (tw 63)); cp 5 0; cp 2 5;
   Op paddw 0 (R 4); Op paddw 1 (R 4); cp 4 7;
   Op paddw 5 (R 5);
   Op paddw 7 (R 7); Op paddw 5 (R 0);
   Op paddw 7 (R 1); Op paddw 2 (R 0); Un (psraw 7) 0 (R 0);
   Op paddw 4 (R 1); Un (psraw 7) 1 (R 1); Un (psraw 7) 2 (R 2);
   Op packsswb 0 (R 1);
   Un (psraw 7) 4 (R 4); Un (psraw 7) 5 (R 5); Un (psraw 7) 7 (R 7);
   Op packsswb 5 (R 7); Op packsswb 2 (R 4); Un mov 7 (K (tb 128))].
(** l.482-490. *)
Definition mb_outer_again (y : bool) : list instr :=
  if y then [ld 1 (At rdi 0); ld 4 (Ix rsi rax 2 0)]
  else [ld 1 q1_; ld 4 p1_; Lea rsi (Ix rsi rcx 2 0); Lea rdi (Ix rdi rcx 2 0)].
(** l.496-521. *)
Definition mb_sums (y : bool) : list instr :=
  [Op pxor 1 (R 7); Op pxor 4 (R 7);
   Op psubsb 3 (R 5); Op paddsb 6 (R 5); Op psubsb 1 (R 2); Op paddsb 4 (R 2)] ++
  (if y then [ld 2 (Ix rdi rax 4 0); ld 5 (Ix rdi rcx 1 0)] else [ld 2 p2_; ld 5 q2_]) ++
  [Op pxor 1 (R 7); Op pxor 4 (R 7); Op pxor 2 (R 7); Op pxor 5 (R 7);
   Op paddsb 2 (R 0); Op psubsb 5 (R 0);
   Op pxor 2 (R 7); Op pxor 5 (R 7); Op pxor 3 (R 7); Op pxor 6 (R 7)].
(** l.522-545. *)
Definition mb_write (y : bool) : list instr :=
  if y then
    [sto (Ix rdi rcx 1 0) 5; sto (At rdi 0) 1; sto (At rsi 0) 3;
     sto (Ix rsi rax 1 0) 6; sto (Ix rsi rax 2 0) 4; sto (Ix rdi rax 4 0) 2]
  else
    [St false 8 (At rsi 0) 6; StHi (At rdi 0) 6;
     St false 8 (Ix rsi rcx 1 0) 3; StHi (Ix rdi rcx 1 0) 3;
     Lea rdx (Ix rcx rcx 2 0);
     St false 8 (Ix rsi rcx 2 0) 1; StHi (Ix rdi rcx 2 0) 1;
     St false 8 (Ix rsi rax 1 0) 4; StHi (Ix rdi rax 1 0) 4;
     St false 8 (Ix rsi rax 2 0) 2; StHi (Ix rdi rax 2 0) 2;
     St false 8 (Ix rsi rdx 1 0) 5; StHi (Ix rdi rdx 1 0) 5].

(** ** Functions *)

(** l.556-598: vp8_mbloop_filter_horizontal_edge_sse2. *)
Definition mbh_y : list instr :=
  [Arg rsi 0; Arg rax 1; Arg rdx 3; Lea rdi (Ix rsi rax 1 0)] ++
  lfh true ++ mb_outer true ++ mb_taps ++ mb_outer_again true ++ mb_sums true ++ mb_write true.
(** l.350-360 and l.624-632: the prologues of the functions on U and V. *)
Definition uv_start : list instr :=
  [Arg rsi 0; Arg rdi 5; Arg rax 1; MovR rcx rax; Neg rax; Arg rdx 3;
   Lea rsi (Ix rsi rcx 1 0); Lea rdi (Ix rdi rcx 1 0)].
(** l.601-648: vp8_mbloop_filter_horizontal_edge_uv_sse2. *)
Definition mbh_uv : list instr :=
  uv_start ++ lfh false ++ mb_outer false ++ mb_taps ++ mb_outer_again false ++ mb_sums false ++ mb_write false.
(** l.328-378: vp8_loop_filter_horizontal_edge_uv_sse2. *)
Definition bh_uv : list instr := uv_start ++ lfh false ++ b_filter.

(** A call: the stack pointer addresses the segment [k]. *)
Definition entry (k : nat) (m : nat -> Z -> Z) : machine :=
  mkMachine (set_nth (repeat (Int 0) 16) rsp (Ptr k 0)) (repeat (Vb []) 24) m.
Definition edge_call (k : nat) (L : layout) (code : list instr) (src : val) (pitch : Z) (blimit limit thresh v : val) (m : nat -> Z -> Z)
  : option (nat -> Z -> Z) :=
  call_from (entry k m) 1 L [src; Int pitch; blimit; limit; thresh; v] [Line code].
