(** * PackTupleModel: the tuples of four or eight bytes that are constructed,
    copied and swapped as one integer, on a memory of bytes. *)
From Coq Require Import List ZArith Bool.
From Verif Require Import MinMaxModel.
Import ListNotations.
Local Open Scope Z_scope.

Definition bytemem := Z -> Z.
Definition bytes_of (m : bytemem) (a : Z) (n : nat) : list Z := map (fun i => m (a + Z.of_nat i)) (seq 0 n).
(** Little endian. *)
Fixpoint le (l : list Z) : Z := match l with [] => 0 | b :: t => b + 256 * le t end.
(** Reading and writing an integer of n bytes at an address, as x86 does. *)
Definition load (n : nat) (m : bytemem) (a : Z) : Z := le (bytes_of m a n).
Definition store (n : nat) (m : bytemem) (a v : Z) : bytemem :=
  fun x => if (a <=? x) && (x <? a + Z.of_nat n) then (v / 256 ^ (x - a)) mod 256 else m x.

(** utuple.h:253-255 [LONG_TUPLE_SPECS: tuple ()] with n = 8 and 292-295
    [UINT32_TUPLE_SPECS: tuple ()] with n = 4: one integer zero. *)
Definition packed_new (n : nat) (m : bytemem) (a : Z) : bytemem := store n m a 0.
(** utuple.h:256-260 [LONG_TUPLE_SPECS: swap], 313-316 [UINT32_TUPLE_SPECS:
    swap]: iter_swap (ualgobase.h:64-67) of two integers, uutility.h [swap]. *)
Definition packed_swap (n : nat) (m : bytemem) (a b : Z) : bytemem :=
  let t := load n m a in
  let m := store n m a (load n m b) in
  store n m b t.
(** utuple.h:296-312 [UINT32_TUPLE_SPECS: operator=, copy constructors], from
    a tuple of the same type or of the other signedness: one mov. *)
Definition packed_assign (n : nat) (m : bytemem) (dst src : Z) : bytemem := store n m dst (load n m src).
(** utuple.h:318-321 [UINT32_TUPLE_SPECS: operator+=, operator-=] on elements of
    16 bits: the sum is converted back to the element type. *)
Definition packed_op (f : Z -> Z -> Z) (m : bytemem) (s : bool) (a b : Z) : bytemem :=
  let el m x := conv (Ity 16 s) (load 2 m x) in
  let m := store 2 m a (f (el m a) (el m b)) in
  store 2 m (a + 2) (f (el m (a + 2)) (el m (b + 2))).
