(** * FillModel: the fill primitives of ualgobase.cc for elements of any width.

    Memory as in ByteModel; a value is the list [v] of its bytes, so that
    sizeof(T) is [length v] (2 or 4; 1 is ByteModel's fill_n8_fast). *)
From Verif Require Import Base UtilModel ByteModel.
From Coq Require Import ZArith.
Local Open Scope Z_scope.

Section Fill.
  Context {A : Type}.

  (** ualgobase.cc:44-50 [stosv]: [n] times the value, upwards. *)
  Fixpoint stosv (n : nat) (m : mem A) (p : Z) (v : list A) : outcome (mem A * Z) :=
    match n with
    | O => Ok (m, p)
    | S k => m <- st_block v m p ;; stosv k m (p + Z.of_nat (length v)) v
    end.
  (** ualgobase.cc:165-184 [build_block]: the register mm0, eight bytes of the
      value repeated. *)
  Definition build_block (v : list A) : list A := concat (repeat v (8 / length v)).
  (** ualgobase.cc:85-104, 186-193 [simd_block_fill_loop], [simd_block_store]. *)
  Fixpoint block_fill_loop (n : nat) (m : mem A) (dest : Z) (mm0 : list A) : outcome (mem A * Z) :=
    match n with
    | O => Ok (m, dest)
    | S k => m <- st_block mm0 m dest ;; m <- st_block mm0 m (dest + 8) ;;
             m <- st_block mm0 m (dest + 16) ;; m <- st_block mm0 m (dest + 24) ;;
             block_fill_loop k m (dest + 32) mm0
    end.
  (** ualgobase.cc:195-211 [fill_n_fast].  Note the missing parentheses in
      [Align(dest) - dest / sizeof(T)]. *)
  Definition fill_n_fast (m : mem A) (dest count : Z) (v : list A) : outcome (mem A) :=
    let es := Z.of_nat (length v) in
    al <- align dest 16 ;;
    let nHead := umin (u64 (al - dest / es)) count in
    ' (m, dest) <- stosv (Z.to_nat nHead) m dest v ;;
    let count := count - nHead in
    ' (m, dest) <- block_fill_loop (Z.to_nat (u64 (count * es) / 32)) m dest (build_block v) ;;
    ' (m, _) <- stosv (Z.to_nat (count mod 32)) m dest v ;;
    Ok m.
End Fill.
