(** * UtilModel: the integer utilities of uutility.h.

    Machine integers are [Z]; every operation that the C++ type reduces modulo
    a power of two is reduced explicitly ([u32], [u64]).  Shifting by the word
    width or more, dividing by zero and signed overflow are [UB]. *)
From Verif Require Import Base.
From Coq Require Import ZArith.
Local Open Scope Z_scope.

Definition two32 : Z := 4294967296.
Definition two64 : Z := 18446744073709551616.
(** Conversion to uint32_t / uint64_t. *)
Definition u32 (x : Z) : Z := x mod two32.
Definition u64 (x : Z) : Z := x mod two64.

(** uutility.h:48-56 [min] / [max]. *)
Definition umin (a b : Z) : Z := if a <? b then a else b.
Definition umax (a b : Z) : Z := if b <? a then a else b.

(** uutility.h:65-67 [AlignDown] on size_t. *)
Definition align_down (n grain : Z) : outcome Z :=
  if grain =? 0 then UB else Ok (n - n mod grain).
(** uutility.h:70-72 [Align] on size_t ([n + grain - 1] wraps modulo 2^64). *)
Definition align (n grain : Z) : outcome Z :=
  align_down (u64 (n + grain - 1)) grain.

(** uutility.h:106-110 [absv], uutility.h:113-117 [sign] on a signed type
    (overflow of [-v] at the minimum of the type is excluded by callers). *)
Definition absv (v : Z) : Z := if v <? 0 then - v else v.
Definition sign (v : Z) : Z := (if 0 <? v then 1 else 0) - (if v <? 0 then 1 else 0).

(** uutility.h:120-124 [gcd]; C++ [%] truncates towards zero. *)
Fixpoint gcd_fuel (fuel : nat) (a b : Z) : outcome Z :=
  if b =? 0 then Ok (absv a) else
  match fuel with
  | O => NoFuel
  | S f => gcd_fuel f b (Z.rem a b)
  end.
Definition gcd (a b : Z) : outcome Z := gcd_fuel (S (Z.to_nat (Z.abs b))) a b.
(** uutility.h:127-131 [lcm]. *)
Definition lcm (a b : Z) : outcome Z :=
  g <- gcd a b ;;
  if g =? 0 then UB else Ok (Z.quot a g * b).

(** uutility.h:138-150 [bswap]: __builtin_bswapN, modelled by what the GCC
    manual says: the bytes in reverse order. *)
Fixpoint bytes_le (n : nat) (v : Z) : list Z :=
  match n with
  | O => []
  | S n' => v mod 256 :: bytes_le n' (v / 256)
  end.
Fixpoint of_bytes_le (l : list Z) : Z :=
  match l with
  | [] => 0
  | b :: t => b + 256 * of_bytes_le t
  end.
Definition bswap (nbytes : nat) (v : Z) : Z := of_bytes_le (rev (bytes_le nbytes v)).

(** uutility.h:209-215 [pack_type]: [TSmall] of [h] bits, [TBig] of [w] bits. *)
Fixpoint pack_loop (fuel : nat) (h w b : Z) : outcome Z :=
  if h <? w then
    match fuel with
    | O => NoFuel
    | S f => pack_loop f (h * 2) w (Z.lor (Z.shiftl b h mod 2 ^ w) b)
    end
  else Ok b.
Definition pack_type (h w s : Z) : outcome Z := pack_loop (Z.to_nat w) h w s.

(** uutility.h:219-226 [DivRU] on a signed type; [/] truncates. *)
Definition div_ru (n1 n2 : Z) : outcome Z :=
  let adj := n2 - 1 in
  let adj := if n1 <? 0 then - adj else adj in
  if n2 =? 0 then UB else Ok (Z.quot (n1 + adj) n2).

(** uutility.h:247-275 [FirstBit], the portable loop of lines 256 / 272
    ([top] is 31 or 63); __builtin_clz and bsr compute the same index. *)
Fixpoint first_bit_loop (n : nat) (v : Z) : Z :=
  if Z.testbit v (Z.of_nat n) then Z.of_nat n
  else match n with
       | O => 0
       | S n' => first_bit_loop n' v
       end.
Definition first_bit (top : nat) (v nbv : Z) : Z :=
  if v =? 0 then nbv else first_bit_loop top v.

(** uutility.h:279-287 [NextPow2] on uint32_t.  The bsr instruction leaves its
    destination unchanged on a zero source, which is what FirstBit(r,r) says;
    [1<<32] on the asm path is taken to give 1 as the comment at line 278
    documents. *)
Definition next_pow2 (v : Z) : Z :=
  let r := u32 (v - 1) in
  let r := first_bit 31 r r in
  let r := if 31 <=? r then u32 (-1) else r in
  u32 (Z.shiftl 1 (u32 (1 + r))).

(** uutility.h:290-301 [Rol] / [Ror] on a type of [w] bits. *)
Definition rol (w v n : Z) : outcome Z :=
  if (w <=? n) || (w <=? w - n) then UB
  else Ok (Z.lor (Z.shiftl v n mod 2 ^ w) (Z.shiftr v (w - n))).
Definition ror (w v n : Z) : outcome Z :=
  if (w <=? n) || (w <=? w - n) then UB
  else Ok (Z.lor (Z.shiftr v n) (Z.shiftl v (w - n) mod 2 ^ w)).

(** ualgobase.cc:259-266 [popcount (uint32_t)]. *)
Definition popcount32 (v : Z) : Z :=
  let w := u32 (v - Z.land (Z.shiftr v 1) 0x55555555) in
  let x := u32 (Z.land w 0x33333333 + Z.land (Z.shiftr w 2) 0x33333333) in
  Z.shiftr (u32 (Z.land (u32 (x + Z.shiftr x 4)) 0x0F0F0F0F * 0x01010101)) 24.

(** ualgobase.cc:268-275 [popcount (uint64_t)]. *)
Definition popcount64 (v : Z) : Z :=
  let v := u64 (v - Z.land (Z.shiftr v 1) 0x5555555555555555) in
  let v := u64 (Z.land v 0x3333333333333333 + Z.land (Z.shiftr v 2) 0x3333333333333333) in
  let v := Z.land (u64 (v + Z.shiftr v 4)) 0x0F0F0F0F0F0F0F0F in
  Z.shiftr (u64 (v * 0x0101010101010101)) 56.
