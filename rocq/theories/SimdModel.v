(** A machine for the vector code in src/decoder/*.asm: the registers, the
    memory and the instructions that these files use (x86-64, System V calls).

    - Memory is a set of numbered segments, one per array that the caller
      passes.  A pointer is a segment and an offset.  An access outside a
      segment, and an aligned access at an address that is not a multiple of
      16, has no result.
    - A vector is kept as the list of its lanes, lowest first, together with
      the width at which it was last written.  Reading it at another width
      converts it, little-endian.
    - The macros of x86_abi_support.asm and x86inc.asm that save registers and
      fetch arguments are replaced by [Arg]: the arguments are a list. *)
From Verif Require Import Base MVModel RasterModel VarianceModel.

(** * Lanes *)

(** Lanes of 8 bits are in 0..255, lanes of 16 and 32 bits are signed. *)
Definition s8 (z : Z) : Z := (z + 128) mod 256 - 128.
Definition lo8 (w : Z) : Z := w mod 256.
Definition hi8 (w : Z) : Z := (w / 256) mod 256.
Definition word (lo hi : Z) : Z := s16 (lo + 256 * hi).
Definition lo16 (d : Z) : Z := s16 d.
Definition hi16 (d : Z) : Z := s16 (d / 65536).
Definition dword (lo hi : Z) : Z := s32 (lo mod 65536 + 65536 * hi).
(** Saturation. *)
Definition sat8 (x : Z) : Z := Z.max (-128) (Z.min 127 x).
Definition sat16 (x : Z) : Z := Z.max (-32768) (Z.min 32767 x).
(** Lane operations that wrap around or shift. *)
Definition add16 (x y : Z) : Z := s16 (x + y).
Definition sub16 (x y : Z) : Z := s16 (x - y).
Definition sar (k x : Z) : Z := Z.shiftr x k.

Inductive vec : Type :=
| Vb (l : list Z)
| Vw (l : list Z)
| Vd (l : list Z).

Fixpoint pairs (f : Z -> Z -> Z) (l : list Z) : list Z :=
  match l with
  | x :: y :: t => f x y :: pairs f t
  | _ => []
  end.

Definition words (v : vec) : list Z :=
  match v with
  | Vb l => pairs word l
  | Vw l => l
  | Vd l => flat_map (fun d => [lo16 d; hi16 d]) l
  end.
Definition bytes (v : vec) : list Z :=
  match v with
  | Vb l => l
  | _ => flat_map (fun w => [lo8 w; hi8 w]) (words v)
  end.
Definition dwords (v : vec) : list Z :=
  match v with
  | Vd l => l
  | _ => pairs dword (words v)
  end.

(** Lanes of 1, 2 or 4 bytes. *)
Definition tag (v : vec) : nat := match v with Vb _ => 1 | Vw _ => 2 | Vd _ => 4 end.
Definition lanes (k : nat) (v : vec) : list Z :=
  match k with 1%nat => bytes v | 2%nat => words v | _ => dwords v end.
Definition mk (k : nat) (l : list Z) : vec :=
  match k with 1%nat => Vb l | 2%nat => Vw l | _ => Vd l end.
(** The widest lanes, at most [n] bytes, at which neither vector has to be
    put together from smaller lanes. *)
Definition grain (n : nat) (a b : vec) : nat := Nat.min n (Nat.min (tag a) (tag b)).

Fixpoint map2 (f : Z -> Z -> Z) (a b : list Z) : list Z :=
  match a, b with
  | x :: a', y :: b' => f x y :: map2 f a' b'
  | _, _ => []
  end.

(** * Instructions on vectors, as functions of destination and source *)

Definition op8 (f : Z -> Z -> Z) (a b : vec) : vec := Vb (map2 f (bytes a) (bytes b)).
Definition op16 (f : Z -> Z -> Z) (a b : vec) : vec := Vw (map2 f (words a) (words b)).
Definition op32 (f : Z -> Z -> Z) (a b : vec) : vec := Vd (map2 f (dwords a) (dwords b)).
Definition bits (f : Z -> Z -> Z) (a b : vec) : vec :=
  let k := grain 4 a b in mk k (map2 f (lanes k a) (lanes k b)).

Definition paddw := op16 add16.
Definition psubw := op16 sub16.
Definition pmullw := op16 (fun x y => s16 (x * y)).
Definition pmulhw := op16 (fun x y => s16 (Z.shiftr (x * y) 16)).
Definition paddsw := op16 (fun x y => sat16 (x + y)).
Definition pcmpeqw := op16 (fun x y => if x =? y then -1 else 0).
Definition paddd := op32 (fun x y => s32 (x + y)).
Definition psubd := op32 (fun x y => s32 (x - y)).
Definition pcmpgtd := op32 (fun x y => if y <? x then -1 else 0).
Definition pand := bits Z.land.
Definition por := bits Z.lor.
Definition pxor := bits Z.lxor.
Definition pandn := bits (fun x y => Z.land (Z.lnot x) y).

(** Bytes: wrapping, saturating unsigned and saturating signed. *)
Definition paddb := op8 (fun x y => lo8 (x + y)).
Definition psubb := op8 (fun x y => lo8 (x - y)).
Definition paddusb := op8 (fun x y => Z.min 255 (x + y)).
Definition psubusb := op8 (fun x y => Z.max 0 (x - y)).
Definition paddsb := op8 (fun x y => lo8 (sat8 (s8 x + s8 y))).
Definition psubsb := op8 (fun x y => lo8 (sat8 (s8 x - s8 y))).
Definition pmaxub := op8 Z.max.
Definition pminub := op8 Z.min.
Definition pavgb := op8 (fun x y => Z.shiftr (x + y + 1) 1).
Definition pcmpeqb := op8 (fun x y => if x =? y then 255 else 0).

(** Sums of the products of adjacent words. *)
Definition pmaddwd (a b : vec) : vec := Vd (pairs (fun x y => s32 (x + y)) (map2 Z.mul (words a) (words b))).
(** Sums of the products of adjacent bytes, unsigned times signed, saturated. *)
Definition pmaddubsw (a b : vec) : vec := Vw (pairs (fun x y => sat16 (x + y)) (map2 (fun x y => x * s8 y) (bytes a) (bytes b))).
(** Packing: first the lanes of the destination. *)
Definition packssdw (a b : vec) : vec := Vw (map sat16 (dwords a ++ dwords b)).
Definition packuswb (a b : vec) : vec := Vb (map clamp255 (words a ++ words b)).
Definition packsswb (a b : vec) : vec := Vb (map (fun x => lo8 (sat8 x)) (words a ++ words b)).
(** pshufb: every byte of the source picks a byte of the destination, or zero. *)
Definition pshufb (a b : vec) : vec :=
  Vb (map (fun i => let n := Z.to_nat i in if Nat.ltb n 128 then nth (n mod 16) (bytes a) 0 else 0) (bytes b)).
(** Sums of the absolute differences of eight bytes. *)
Fixpoint sums8 (n : nat) (l : list Z) : list Z :=
  match n with
  | O => []
  | S m => fold_right Z.add 0 (firstn 8 l) :: 0 :: sums8 m (skipn 8 l)
  end.
Definition psadbw (a b : vec) : vec :=
  let d := map2 (fun x y => Z.abs (x - y)) (bytes a) (bytes b) in Vd (sums8 (length d / 8) d).

(** punpckl/punpckh with units of [n] bytes (bw 1, wd 2, dq 4, qdq 8). *)
Fixpoint zip (n c : nat) (a b : list Z) : list Z :=
  match n with
  | O => []
  | S m => firstn c a ++ firstn c b ++ zip m c (skipn c a) (skipn c b)
  end.
Definition punpckl (n : nat) (a b : vec) : vec :=
  let k := grain n a b in
  let x := lanes k a in let y := lanes k b in
  let h := (length x / 2)%nat in let c := (n / k)%nat in
  mk k (zip (h / c) c (firstn h x) (firstn h y)).
Definition punpckh (n : nat) (a b : vec) : vec :=
  let k := grain n a b in
  let x := lanes k a in let y := lanes k b in
  let h := (length x / 2)%nat in let c := (n / k)%nat in
  mk k (zip (h / c) c (skipn h x) (skipn h y)).

(** ** One source *)

Definition un16 (f : Z -> Z) (v : vec) : vec := Vw (map f (words v)).
Definition un32 (f : Z -> Z) (v : vec) : vec := Vd (map f (dwords v)).
Definition psraw (k : Z) := un16 (sar k).
Definition psllw (k : Z) := un16 (fun x => s16 (x * 2 ^ k)).
Definition psrlw (k : Z) := un16 (fun x => s16 (Z.shiftr (x mod 65536) k)).
Definition psrad (k : Z) := un32 (sar k).
(** Selection of units: [imm] holds four fields of two bits. *)
Definition field (imm i : nat) : nat := ((imm / 4 ^ i) mod 4)%nat.
Definition select (imm : nat) (l : list Z) : list Z := map (fun i => nth (field imm i) l 0) [0; 1; 2; 3]%nat.
Definition pshuflw (imm : nat) (v : vec) : vec := Vw (select imm (firstn 4 (words v)) ++ skipn 4 (words v)).
Definition pshufhw (imm : nat) (v : vec) : vec := Vw (firstn 4 (words v) ++ select imm (skipn 4 (words v))).
Definition pshufd (imm : nat) (v : vec) : vec :=
  match v with
  | Vd l => Vd (select imm l)
  | _ => Vw (flat_map (fun i => [nth (2 * field imm i) (words v) 0; nth (2 * field imm i + 1) (words v) 0]) [0; 1; 2; 3]%nat)
  end.
(** Shifts of the whole register by [n] bytes. *)
Definition psrldq (n : nat) (v : vec) : vec :=
  let k := if Nat.even n then match tag v with 1%nat => 1%nat | _ => 2%nat end else 1%nat in
  mk k (skipn (n / k) (lanes k v) ++ repeat 0 (n / k)).
Definition pslldq (n : nat) (v : vec) : vec :=
  let k := if Nat.even n then match tag v with 1%nat => 1%nat | _ => 2%nat end else 1%nat in
  mk k (repeat 0 (n / k) ++ firstn (length (lanes k v) - n / k) (lanes k v)).
(** movdqa, movq between registers of the same kind. *)
Definition mov (v : vec) : vec := v.
(** movq xmm, xmm: the low eight bytes, the others become zero. *)
Definition movq (v : vec) : vec :=
  let k := tag v in mk k (firstn (8 / k) (lanes k v) ++ repeat 0 (8 / k)).
(** pxor r, r. *)
Definition zeros (n : nat) : vec := Vb (repeat 0 n).

(** * The machine *)

Inductive val : Type :=
| Int (z : Z)
| Ptr (seg : nat) (off : Z).

(** Segment sizes and the address of their first byte. *)
Record layout : Type := mkLayout { extent : nat -> Z; base : nat -> Z }.

Record machine : Type := mkMachine {
  gp : list val;
  vr : list vec;                 (* 0-15: xmm0-15, 16-23: mm0-7 *)
  mem : nat -> Z -> Z
}.

Definition rax := 0%nat.
Definition rcx := 1%nat.
Definition rdx := 2%nat.
Definition rbx := 3%nat.
Definition rsp := 4%nat.
Definition rsi := 5%nat.
Definition rdi := 6%nat.
Definition rbp := 7%nat.
Definition r8 := 8%nat.
Definition r9 := 9%nat.
Definition r10 := 10%nat.
Definition mm (i : nat) : nat := (16 + i)%nat.

(** [base + scale * index + displacement]. *)
Inductive addr : Type :=
| At (b : nat) (d : Z)
| Ix (b i : nat) (scale d : Z).

Definition val_add (a b : val) : option val :=
  match a, b with
  | Int x, Int y => Some (Int (x + y))
  | Ptr s o, Int y => Some (Ptr s (o + y))
  | Int x, Ptr s o => Some (Ptr s (o + x))
  | _, _ => None
  end.
Definition val_mul (k : Z) (a : val) : option val :=
  match a with Int x => Some (Int (k * x)) | Ptr _ _ => None end.
Definition reg (s : machine) (r : nat) : val := nth r (gp s) (Int 0).
Definition eval (s : machine) (a : addr) : option val :=
  match a with
  | At b d => val_add (reg s b) (Int d)
  | Ix b i k d => let? x := val_mul k (reg s i) in let? y := val_add (reg s b) x in val_add y (Int d)
  end.

Definition aligned (L : layout) (al : bool) (seg : nat) (off : Z) : bool :=
  negb al || ((base L seg + off) mod 16 =? 0).
Definition in_bounds (L : layout) (seg : nat) (off n : Z) : bool := (0 <=? off) && (off + n <=? extent L seg).

(** [n] bytes; [al]: the instruction demands alignment to 16 bytes. *)
Definition load (L : layout) (al : bool) (n : nat) (m : nat -> Z -> Z) (v : val) : option (list Z) :=
  match v with
  | Int _ => None
  | Ptr seg off =>
      if in_bounds L seg off (Z.of_nat n) && aligned L al seg off
      then Some (map (fun i => m seg (off + Z.of_nat i)) (seq 0 n)) else None
  end.
Definition poke (m : nat -> Z -> Z) (seg : nat) (off : Z) (l : list Z) : nat -> Z -> Z :=
  fun s a => if Nat.eqb s seg && (off <=? a) && (a <? off + zlen l) then nth (Z.to_nat (a - off)) l 0 else m s a.
Definition store (L : layout) (al : bool) (l : list Z) (m : nat -> Z -> Z) (v : val) : option (nat -> Z -> Z) :=
  match v with
  | Int _ => None
  | Ptr seg off =>
      if in_bounds L seg off (zlen l) && aligned L al seg off then Some (poke m seg off l) else None
  end.

Inductive src : Type :=
| R (r : nat)                                   (* a vector register *)
| M (al : bool) (n w : nat) (a : addr)          (* n bytes of memory, extended with zeros to w *)
| K (v : vec).                                  (* a constant of SECTION_RODATA *)

Inductive instr : Type :=
| Op (f : vec -> vec -> vec) (d : nat) (s : src)     (* d := f d s *)
| Un (f : vec -> vec) (d : nat) (s : src)            (* d := f s *)
| St (al : bool) (n : nat) (a : addr) (s : nat)      (* the low n bytes of s *)
| StHi (a : addr) (s : nat)                          (* movhps [a], s *)
| LdHi (d : nat) (a : addr)                          (* movhps d, [a] *)
| LdLo (d : nat) (a : addr)                          (* movlps d, [a] *)
| Arg (d : nat) (i : nat)                            (* mov / movsxd d, arg(i) *)
| MovR (d s : nat)
| MovI (d : nat) (z : Z)
| Lea (d : nat) (a : addr)
| AddR (d s : nat)
| AddI (d : nat) (z : Z)                             (* add, sub, dec, inc *)
| Neg (d : nat)
| Movd (d : nat) (s : nat)                           (* movd r32, xmm *)
| MovdTo (d : nat) (s : nat)                         (* movd xmm, r32 *)
| Shr (d : nat) (k : Z)                              (* shr r32, k *)
| StW (a : addr) (s : nat)                           (* mov word ptr [a], r16 *)
| LdB (d : nat) (a : addr)                           (* movzx r32, byte [a] *)
| StD (a : addr) (s : nat).                          (* mov dword ptr [a], r32 *)

Definition vreg (s : machine) (r : nat) : vec := nth r (vr s) (Vb []).
Definition set_v (s : machine) (r : nat) (v : vec) : machine := mkMachine (gp s) (set_nth (vr s) r v) (mem s).
Definition set_g (s : machine) (r : nat) (v : val) : machine := mkMachine (set_nth (gp s) r v) (vr s) (mem s).
Definition set_m (s : machine) (m : nat -> Z -> Z) : machine := mkMachine (gp s) (vr s) m.

Definition source (L : layout) (s : machine) (x : src) : option vec :=
  match x with
  | R r => Some (vreg s r)
  | M al n w a => let? p := eval s a in let? l := load L al n (mem s) p in Some (Vb (l ++ repeat 0 (w - n)))
  | K v => Some v
  end.

Definition as_int (v : val) : option Z := match v with Int z => Some z | Ptr _ _ => None end.

Definition exec (L : layout) (args : list val) (i : instr) (s : machine) : option machine :=
  match i with
  | Op f d x => let? v := source L s x in Some (set_v s d (f (vreg s d) v))
  | Un f d x => let? v := source L s x in Some (set_v s d (f v))
  | St al n a r =>
      let? p := eval s a in
      let? m := store L al (firstn n (bytes (vreg s r))) (mem s) p in Some (set_m s m)
  | StHi a r =>
      let? p := eval s a in
      let? m := store L false (skipn 8 (bytes (vreg s r))) (mem s) p in Some (set_m s m)
  | LdHi d a =>
      let? p := eval s a in
      let? l := load L false 8 (mem s) p in Some (set_v s d (Vb (firstn 8 (bytes (vreg s d)) ++ l)))
  | LdLo d a =>
      let? p := eval s a in
      let? l := load L false 8 (mem s) p in Some (set_v s d (Vb (l ++ skipn 8 (bytes (vreg s d)))))
  | Arg d k => Some (set_g s d (nth k args (Int 0)))
  | MovR d r => Some (set_g s d (reg s r))
  | MovI d z => Some (set_g s d (Int z))
  | Lea d a => let? v := eval s a in Some (set_g s d v)
  | AddR d r => let? v := val_add (reg s d) (reg s r) in Some (set_g s d v)
  | AddI d z => let? v := val_add (reg s d) (Int z) in Some (set_g s d v)
  | Neg d => let? v := val_mul (-1) (reg s d) in Some (set_g s d v)
  | Movd d r => Some (set_g s d (Int (nth 0 (dwords (vreg s r)) 0 mod 4294967296)))
  | MovdTo d r => let? z := as_int (reg s r) in Some (set_v s d (Vd [s32 z; 0; 0; 0]))
  | Shr d k => let? z := as_int (reg s d) in Some (set_g s d (Int (Z.shiftr z k)))
  | StW a r =>
      let? p := eval s a in let? z := as_int (reg s r) in
      let? m := store L false [lo8 z; hi8 z] (mem s) p in Some (set_m s m)
  | LdB d a =>
      let? p := eval s a in let? l := load L false 1 (mem s) p in Some (set_g s d (Int (nth 0 l 0)))
  | StD a r =>
      let? p := eval s a in let? z := as_int (reg s r) in
      let? m := store L false [lo8 z; hi8 z; lo8 (z / 65536); hi8 (z / 65536)] (mem s) p in Some (set_m s m)
  end.

Fixpoint run (L : layout) (args : list val) (l : list instr) (s : machine) : option machine :=
  match l with
  | [] => Some s
  | i :: t => let? s' := exec L args i s in run L args t s'
  end.

(** Code with loops: a loop ends with a subtraction from [ctr] and jg, or with
    dec [ctr] (nothing after it changes the flags) and jnz. *)
Inductive block : Type :=
| Line (l : list instr)
| Loop (ctr : nat) (l : list instr)
| LoopNz (ctr : nat) (l : list instr).

Fixpoint loop (fuel : nat) (L : layout) (args : list val) (ctr : nat) (l : list instr) (s : machine) : option machine :=
  match fuel with
  | O => None
  | S n =>
      let? s := run L args l s in
      let? z := as_int (reg s ctr) in
      if 0 <? z then loop n L args ctr l s else Some s
  end.
Fixpoint loop_nz (fuel : nat) (L : layout) (args : list val) (ctr : nat) (l : list instr) (s : machine) : option machine :=
  match fuel with
  | O => None
  | S n =>
      let? s := run L args l s in
      let? z := as_int (reg s ctr) in
      if z =? 0 then Some s else loop_nz n L args ctr l s
  end.
Fixpoint run_blocks (fuel : nat) (L : layout) (args : list val) (l : list block) (s : machine) : option machine :=
  match l with
  | [] => Some s
  | Line c :: t => let? s := run L args c s in run_blocks fuel L args t s
  | Loop r c :: t => let? s := loop fuel L args r c s in run_blocks fuel L args t s
  | LoopNz r c :: t => let? s := loop_nz fuel L args r c s in run_blocks fuel L args t s
  end.

(** A call: all registers are empty at the start, so a result that depended
    on what they held before would show up as missing lanes. *)
Definition start (m : nat -> Z -> Z) : machine := mkMachine (repeat (Int 0) 16) (repeat (Vb []) 24) m.
Definition call_from (s : machine) (fuel : nat) (L : layout) (args : list val) (code : list block) : option (nat -> Z -> Z) :=
  let? s := run_blocks fuel L args code s in Some (mem s).
Definition call (fuel : nat) (L : layout) (args : list val) (code : list block) (m : nat -> Z -> Z) : option (nat -> Z -> Z) :=
  call_from (start m) fuel L args code.

(** int16_t arrays in memory. *)
Definition peek16 (m : nat -> Z -> Z) (seg : nat) (off : Z) : Z := word (m seg off) (m seg (off + 1)).
(** [n] elements [step] bytes apart. *)
Definition array16 (m : nat -> Z -> Z) (seg : nat) (off step : Z) (n : nat) : list Z :=
  map (fun i => peek16 m seg (off + step * Z.of_nat i)) (seq 0 n).
