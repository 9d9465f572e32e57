(** * ByteModel: the x86 byte-block primitives of ualgobase.cc.

    Memory is a function from addresses to bytes, [None] for an address that
    is not mapped; touching an unmapped address is [UB] (on the machine, a
    fault or a foreign object).  Addresses and sizes are [Z]; size_t
    arithmetic that can wrap is reduced modulo 2^64 ([u64]).  prefetch and
    sfence have no effect on contents and are left out. *)
From Verif Require Import Base UtilModel.
From Coq Require Import ZArith.
Local Open Scope Z_scope.

Section Bytes.
  Context {A : Type}.
  Definition mem : Type := Z -> option A.

  Definition ld (m : mem) (a : Z) : outcome A :=
    match m a with Some x => Ok x | None => UB end.
  Definition st (m : mem) (a : Z) (v : A) : outcome mem :=
    match m a with
    | Some _ => Ok (fun b => if b =? a then Some v else m b)
    | None => UB
    end.

  (** ualgobase.cc:27-33 [movsb] after cld: copies [n] bytes upwards; returns
      memory and the advanced pointers. *)
  Fixpoint movsb_up (n : nat) (m : mem) (src dest : Z) : outcome (mem * Z * Z) :=
    match n with
    | O => Ok (m, src, dest)
    | S n' =>
        x <- ld m src ;;
        m' <- st m dest x ;;
        movsb_up n' m' (src + 1) (dest + 1)
    end.
  (** ualgobase.cc:27-33 [movsb] after std: downwards. *)
  Fixpoint movsb_down (n : nat) (m : mem) (src dest : Z) : outcome (mem * Z * Z) :=
    match n with
    | O => Ok (m, src, dest)
    | S n' =>
        x <- ld m src ;;
        m' <- st m dest x ;;
        movsb_down n' m' (src - 1) (dest - 1)
    end.

  (** Reads [k] consecutive bytes. *)
  Fixpoint ld_block (k : nat) (m : mem) (a : Z) : outcome (list A) :=
    match k with
    | O => Ok []
    | S k' => x <- ld m a ;; t <- ld_block k' m (a + 1) ;; Ok (x :: t)
    end.
  (** Writes consecutive bytes. *)
  Fixpoint st_block (l : list A) (m : mem) (a : Z) : outcome mem :=
    match l with
    | [] => Ok m
    | x :: t => m' <- st m a x ;; st_block t m' (a + 1)
    end.
  Definition block_move (k : nat) (m : mem) (src dest : Z) : outcome mem :=
    l <- ld_block k m src ;; st_block l m dest.

  (** ualgobase.cc:35-41 [movsd] after std: [n] four-byte words downwards. *)
  Fixpoint movsd_down (n : nat) (m : mem) (src dest : Z) : outcome (mem * Z * Z) :=
    match n with
    | O => Ok (m, src, dest)
    | S n' =>
        m' <- block_move 4 m src dest ;;
        movsd_down n' m' (src - 4) (dest - 4)
    end.

  (** ualgobase.cc:56-68 [simd_block_copy] (SSE): two aligned 16-byte loads,
      then two aligned stores; movaps/movntps fault on unaligned addresses. *)
  Definition simd_block_copy (m : mem) (src dest : Z) : outcome mem :=
    if (src mod 16 =? 0) && (dest mod 16 =? 0) then block_move 32 m src dest else UB.
  Fixpoint simd_loop (n : nat) (m : mem) (src dest : Z) : outcome (mem * Z * Z) :=
    match n with
    | O => Ok (m, src, dest)
    | S n' => m' <- simd_block_copy m src dest ;; simd_loop n' m' (src + 32) (dest + 32)
    end.

  (** ualgobase.cc:115-134 [copy_n_fast]. *)
  Definition copy_n_fast (m : mem) (src nBytes dest : Z) : outcome mem :=
    al <- align src 16 ;;
    let nHead := umin (al - src) nBytes in
    ' (m, src, dest) <- movsb_up (Z.to_nat nHead) m src dest ;;
    let nBytes := nBytes - nHead in
    if dest mod 16 =? 0 then
      ' (m, src, dest) <- simd_loop (Z.to_nat (nBytes / 32)) m src dest ;;
      ' (m, _, _) <- movsb_up (Z.to_nat (nBytes mod 32)) m src dest ;;
      Ok m
    else
      ' (m, _, _) <- movsb_up (Z.to_nat nBytes) m src dest ;;
      Ok m.

  (** ualgobase.cc:138-158 [copy_backward_fast]. *)
  Definition copy_backward_fast (m : mem) (first last result : Z) : outcome mem :=
    let nBytes := last - first in
    let nHead := last mod 4 in
    ' (m, last, result) <- movsb_down (Z.to_nat nHead) m (last - 1) (result - 1) ;;
    let nBytes := u64 (nBytes - nHead) in
    if result mod 4 =? 3 then
      ' (m, last, result) <- movsd_down (Z.to_nat (nBytes / 4)) m (last - 3) (result - 3) ;;
      ' (m, _, _) <- movsb_down (Z.to_nat (nBytes mod 4)) m last result ;;
      Ok m
    else
      ' (m, _, _) <- movsb_down (Z.to_nat nBytes) m last result ;;
      Ok m.

  (** ualgobase.h:158-166 [copy_backward_fast] where the target is not x86:
      memmove. *)
  Definition copy_backward_memmove (m : mem) (first last result : Z) : outcome mem :=
    block_move (Z.to_nat (last - first)) m first (result - (last - first)).

  (** ualgobase.cc:223-241 [rotate_fast] with alloca ([buf] is the address
      alloca returned); [cb] is the copy_backward_fast of the target. *)
  Definition rotate_fast_with (cb : mem -> Z -> Z -> Z -> outcome mem)
             (buf : Z) (m : mem) (first middle last : Z) : outcome mem :=
    let half1 := middle - first in
    let half2 := last - middle in
    let hmin := umin half1 half2 in
    if hmin =? 0 then Ok m
    else if half2 <? half1 then
      m <- copy_n_fast m middle half2 buf ;;
      m <- cb m first middle last ;;
      copy_n_fast m buf half2 first
    else
      m <- copy_n_fast m first half1 buf ;;
      m <- copy_n_fast m middle half2 first ;;
      copy_n_fast m buf half1 (first + half2).
  Definition rotate_fast := rotate_fast_with copy_backward_fast.

  (** ualgobase.cc:44-45 [stosv] for bytes. *)
  Fixpoint stosb (n : nat) (m : mem) (p : Z) (v : A) : outcome (mem * Z) :=
    match n with
    | O => Ok (m, p)
    | S n' => m' <- st m p v ;; stosb n' m' (p + 1) v
    end.
  (** ualgobase.cc:85-104, 186-193 [simd_block_fill_loop]: 32-byte stores. *)
  Fixpoint simd_fill_loop (n : nat) (m : mem) (dest : Z) (v : A) : outcome (mem * Z) :=
    match n with
    | O => Ok (m, dest)
    | S n' => m' <- st_block (repeat v 32) m dest ;; simd_fill_loop n' m' (dest + 32) v
    end.
  (** ualgobase.cc:195-211 [fill_n8_fast] ([fill_n_fast] with sizeof(T) = 1). *)
  Definition fill_n8_fast (m : mem) (dest count : Z) (v : A) : outcome mem :=
    al <- align dest 16 ;;
    let nHead := umin (al - dest / 1) count in
    ' (m, dest) <- stosb (Z.to_nat nHead) m dest v ;;
    let count := count - nHead in
    ' (m, dest) <- simd_fill_loop (Z.to_nat (count * 1 / 32)) m dest v ;;
    ' (m, _) <- stosb (Z.to_nat (count mod 32)) m dest v ;;
    Ok m.
End Bytes.
Arguments mem : clear implicits.
