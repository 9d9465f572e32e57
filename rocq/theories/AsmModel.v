(** * Inline assembly: what the SIMD statements do to memory and to registers

    Models the asm statements of simd.h, utuple.h, umatrix.h, ulaalgo.h and
    ualgobase.cc on a small machine: the registers xmm0.. and mm0.., a memory of
    32-bit cells, and whether the x87 unit is in MMX state.  An asm statement is
    its instructions and its clobber list; the compiler may keep any value of the
    surrounding program in a register that is not in the list, and may do what it
    likes with the registers between two statements.

    Simplified: all lanes are 32 bits wide (an operation on bytes or words is a
    function of two 32-bit cells); flags, faults on unaligned movaps and timing
    are left out; an operand %k is the address of the memory it names. *)

From Coq Require Import ZArith List Bool.
Import ListNotations.
Local Open Scope Z_scope.

Inductive reg := X (n : nat) | M (n : nat).

Definition reg_eqb (a b : reg) : bool :=
  match a, b with
  | X m, X n => Nat.eqb m n
  | M m, M n => Nat.eqb m n
  | _, _ => false
  end.

Section Machine.
  Context {E : Type}.
  Variable zero : E.

  (** Lane l of register r; memory cell at an address; x87 in MMX state. *)
  Record mach := mkm { regs : reg -> nat -> E; memo : Z -> E; mmx : bool }.

  Inductive instr :=
  | Ld (w : nat) (a : Z) (r : reg)           (* movups/movaps/movq mem, reg *)
  | St (w : nat) (r : reg) (a : Z)           (* movups/movntps/movq/movntq reg, mem *)
  | Mv (s d : reg)                           (* movaps reg, reg *)
  | Op (f : E -> E -> E) (s d : reg)         (* addps .. reg, reg: d := f d s *)
  | OpM (f : E -> E -> E) (w : nat) (a : Z) (d : reg)  (* paddb .. mem, reg *)
  | Zr (r : reg)                             (* xorps r, r / pxor r, r *)
  | Sh (imm : nat) (s d : reg)               (* shufps $imm, s, d *)
  | Cv (f : E -> E) (w : nat) (a : Z) (r : reg) (* cvtps2pi / cvtpi2ps mem, reg: w lanes *)
  | Imm (v : E) (r : reg)                    (* movd: lane 0 := v, the rest 0 *)
  | Dup (r : reg)                            (* punpckldq r, r: lane 1 := lane 0 *)
  | Emms.

  Definition set_reg (s : mach) (r : reg) (v : nat -> E) : mach :=
    mkm (fun q => if reg_eqb q r then v else regs s q) (memo s)
        (match r with M _ => true | X _ => mmx s end).

  (** A store does not change the registers; one from an mm register enters MMX state. *)
  Definition set_mem (s : mach) (w : nat) (r : reg) (a : Z) : mach :=
    mkm (regs s)
        (fun x => if (a <=? x) && (x <? a + Z.of_nat w) then regs s r (Z.to_nat (x - a)) else memo s x)
        (match r with M _ => true | X _ => mmx s end).

  Definition lane (imm k : nat) : nat := Nat.modulo (Nat.div imm (Nat.pow 4 k)) 4.

  Definition exec1 (i : instr) (s : mach) : mach :=
    match i with
    | Ld w a r => set_reg s r (fun l => if Nat.ltb l w then memo s (a + Z.of_nat l) else regs s r l)
    | St w r a => set_mem s w r a
    | Mv q d => set_reg s d (regs s q)
    | Op f q d => set_reg s d (fun l => f (regs s d l) (regs s q l))
    | OpM f w a d => set_reg s d (fun l => if Nat.ltb l w then f (regs s d l) (memo s (a + Z.of_nat l)) else regs s d l)
    | Zr r => set_reg s r (fun _ => zero)
    | Sh imm q d =>
        set_reg s d (fun l => match l with
                              | O => regs s d (lane imm 0) | 1%nat => regs s d (lane imm 1)
                              | 2%nat => regs s q (lane imm 2) | 3%nat => regs s q (lane imm 3)
                              | _ => regs s d l
                              end)
    | Cv f w a r => set_reg s r (fun l => if Nat.ltb l w then f (memo s (a + Z.of_nat l)) else regs s r l)
    | Imm v r => set_reg s r (fun l => match l with O => v | _ => zero end)
    | Dup r => set_reg s r (fun l => match l with 1%nat => regs s r O | _ => regs s r l end)
    | Emms => mkm (regs s) (memo s) false
    end.

  (** An asm statement: its text and the registers its clobber list names. *)
  Record asm := mkasm { code : list instr; clobbers : list reg }.

  Definition exec (b : asm) (s : mach) : mach := fold_left (fun s i => exec1 i s) (code b) s.

  (** A function body: asm statements; before the k-th, the compiler's own code
      may have changed the registers ([g k]). *)
  Definition gap := (reg -> nat -> E) -> reg -> nat -> E.

  Definition through (g : gap) (s : mach) : mach := mkm (g (regs s)) (memo s) (mmx s).

  Fixpoint body (g : nat -> gap) (l : list asm) (s : mach) : mach :=
    match l with [] => s | b :: t => body (fun k => g (S k)) t (exec b (through (g O) s)) end.

  (** uutility.h:334-336 [reset_mmx]: emms, all mm registers clobbered. *)
  Definition all_mm : list reg := [M 0; M 1; M 2; M 3; M 4; M 5; M 6; M 7].
  Definition reset_mmx : asm := mkasm [Emms] all_mm.

  (** utuple.h:238-239 [tuple<4,float>::tuple ()] (also int32_t, uint32_t). *)
  Definition tuple4_new (v : Z) : asm := mkasm [Zr (X 0); St 4 (X 0) v] [X 0].

  (** utuple.h:240-245 [tuple<4,..>::swap]. *)
  Definition tuple4_swap (a b : Z) : asm :=
    mkasm [Ld 4 a (X 0); Ld 4 b (X 1); St 4 (X 0) b; St 4 (X 1) a] [X 0; X 1].

  (** simd.h:396-398, 402-404 [passign] of 4 floats or 32-bit integers. *)
  Definition passign4 (oin oout : Z) : asm := mkasm [Ld 4 oin (X 0); St 4 (X 0) oout] [X 0].

  (** simd.h:391-395 [packop] of 4 floats: STD_SSE_ARGS names xmm0 only. *)
  Definition packop4 (f : E -> E -> E) (oin oout : Z) : asm :=
    mkasm [Ld 4 oout (X 0); Ld 4 oin (X 1); Op f (X 1) (X 0); St 4 (X 0) oout] [X 0].

  (** simd.h:250-252 [packop] of 8 bytes, 4 words or 2 dwords. *)
  Definition mmx_packop (f : E -> E -> E) (oin oout : Z) : list asm :=
    [mkasm [Ld 2 oout (M 0); OpM f 2 oin (M 0); St 2 (M 0) oout] [M 0]; reset_mmx].

  (** simd.h:253-255 [packop] of 4 dwords. *)
  Definition mmx_dbl_packop (f : E -> E -> E) (oin oout : Z) : list asm :=
    [mkasm [Ld 2 oout (M 0); Ld 2 (oout + 2) (M 1); OpM f 2 oin (M 0); OpM f 2 (oin + 2) (M 1);
            St 2 (M 0) oout; St 2 (M 1) (oout + 2)] [M 0; M 1]; reset_mmx].

  (** simd.h:256-258, 262-264 [passign], [ipassign] of 8 bytes. *)
  Definition mmx_passign (oin oout : Z) : list asm :=
    [mkasm [Ld 2 oin (M 0); St 2 (M 0) oout] [M 0]; reset_mmx].

  (** simd.h:259-261, 265-267 [passign], [ipassign] of 16 bytes with MMX. *)
  Definition mmx_dbl_passign (oin oout : Z) : list asm :=
    [mkasm [Ld 2 oin (M 0); Ld 2 (oin + 2) (M 1); St 2 (M 0) oout; St 2 (M 1) (oout + 2)] [M 0; M 1]; reset_mmx].

  (** simd.h:415-422 [pconvert] of 4 floats to int32_t ([f] is cvtps2pi's rounding). *)
  Definition round4 (f : E -> E) (oin oout : Z) : list asm :=
    [mkasm [Cv f 2 oin (M 0); Cv f 2 (oin + 2) (M 1); St 2 (M 0) oout; St 2 (M 1) (oout + 2)] [M 0; M 1]; reset_mmx].

  (** simd.h:423-429 [pconvert] of 4 int32_t to float. *)
  Definition float4 (f : E -> E) (oin oout : Z) : asm :=
    mkasm [Cv f 2 (oin + 2) (X 0); Sh 78 (X 0) (X 0); Cv f 2 oin (X 0); St 4 (X 0) oout] [X 0].

  (** umatrix.h:80-89 [tuple<16,..>::tuple ()]: a new 4x4 matrix. *)
  Definition tuple16_new (v : Z) : asm :=
    mkasm [Zr (X 0); St 4 (X 0) v; St 4 (X 0) (v + 4); St 4 (X 0) (v + 8); St 4 (X 0) (v + 12)] [X 0].

  (** umatrix.h:91-107 [passign] of 16: two asm statements. *)
  Definition passign16 (oin oout : Z) : list asm :=
    [mkasm [Ld 4 oin (X 0); Ld 4 (oin + 4) (X 1); St 4 (X 0) oout; St 4 (X 1) (oout + 4)] [X 0; X 1];
     mkasm [Ld 4 (oin + 8) (X 0); Ld 4 (oin + 12) (X 1); St 4 (X 0) (oout + 8); St 4 (X 1) (oout + 12)] [X 0; X 1]].

  (** ualgobase.cc:56-68 [simd_block_copy]: 32 bytes. *)
  Definition block_copy (src dest : Z) : asm :=
    mkasm [Ld 4 src (X 0); Ld 4 (src + 4) (X 1); St 4 (X 0) dest; St 4 (X 1) (dest + 4)] [X 0; X 1].

  (** ualgobase.cc:179-184 [build_block (uint32_t)]: leaves the value in mm0. *)
  Definition build_block (v : E) : asm := mkasm [Imm v (M 0); Dup (M 0)] [M 0].

  (** ualgobase.cc:85-94 [simd_block_store]: reads mm0, which is no operand. *)
  Definition block_store (dest : Z) : asm :=
    mkasm [St 2 (M 0) dest; St 2 (M 0) (dest + 2); St 2 (M 0) (dest + 4); St 2 (M 0) (dest + 6)] [].

  (** ualgobase.cc:186-193, 200-205: [build_block], then the loop of stores, then
      [reset_mmx]; 32 bytes a turn. *)
  Fixpoint fill_loop (n : nat) (dest : Z) : list asm :=
    match n with O => [reset_mmx] | S k => block_store dest :: fill_loop k (dest + 8) end.
  Definition fill_blocks (v : E) (dest : Z) (n : nat) : list asm := build_block v :: fill_loop n dest.

  (** ulaalgo.h:88-99 [_sse_load_matrix]. *)
  Definition load_matrix (m : Z) : asm :=
    mkasm [Ld 4 m (X 4); Ld 4 (m + 4) (X 5); Ld 4 (m + 8) (X 6); Ld 4 (m + 12) (X 7)] [X 4; X 5; X 6; X 7].

  (** ulaalgo.h:128 the vector is loaded by a statement of its own. *)
  Definition load_vector (t : Z) : asm := mkasm [Ld 4 t (X 0)] [X 0].

  (** ulaalgo.h:101-121 [_sse_transform_to_vector]: reads xmm0 and xmm4..7, which
      are no operands. *)
  Definition transform (add mul : E -> E -> E) (result : Z) : asm :=
    mkasm [Mv (X 0) (X 1); Mv (X 0) (X 2); Mv (X 0) (X 3);
           Sh 0 (X 0) (X 0); Sh 102 (X 1) (X 1); Sh 170 (X 2) (X 2); Sh 255 (X 3) (X 3);
           Op mul (X 4) (X 0); Op mul (X 5) (X 1); Op add (X 1) (X 0);
           Op mul (X 6) (X 2); Op mul (X 7) (X 3); Op add (X 3) (X 2); Op add (X 2) (X 0);
           St 4 (X 0) result]
          [X 0; X 1; X 2; X 3; X 4; X 5; X 6; X 7].

  (** ulaalgo.h:123-131 [operator* (tuple<4,float>, matrix<4,4,float>)]. *)
  Definition vector_matrix (add mul : E -> E -> E) (t m result : Z) : list asm :=
    [load_matrix m; load_vector t; transform add mul result].

  (** ulaalgo.h:68-85 [load_identity (matrix<4,4,float>&)]: %4 is the register [c]
      the compiler chose for the input 1.0f. *)
  Definition identity4 (c : reg) (m : Z) : asm :=
    mkasm [Mv c (X 1); St 4 c m; Sh 177 (X 1) (X 1); St 4 (X 1) (m + 4); Sh 79 c (X 1); Sh 27 c c;
           St 4 (X 1) (m + 8); St 4 c (m + 12)] [X 1].
End Machine.

Arguments mach : clear implicits.
Arguments asm : clear implicits.
Arguments instr : clear implicits.
Arguments gap : clear implicits.
