(** * VectorSpec: the mathematical sequence a vector is compared with. *)
From Coq Require Import List ZArith Bool.
From Verif Require Import StoreModel VectorModel.
Import ListNotations.

(** The addresses malloc and alloca may return: blocks of up to 2^31 bytes are
    16-aligned and disjoint from the stack buffer. *)
Definition good_env (e : env) : Prop :=
  forall n, (0 <= n <= 2 ^ 31)%Z ->
    (malloc_at e n mod 16 = 0 /\ 0 <= malloc_at e n /\ malloc_at e n + n <= stack_at e /\
     stack_at e + n < 2 ^ 64 - 15)%Z.
(** No allocation of up to 2^31 bytes fails. *)
Definition enough_memory (e : env) : Prop :=
  forall n, (0 <= n <= 2 ^ 31)%Z -> malloc_ok e n = true.

(** The byte offsets for which exchanging [f, m) and [m, l) inside a 16-aligned
    block is done right by the x86 routines (see C21): the moved-up part is not
    the longer one, or it is long enough for its misaligned tail and shifted by
    an odd amount or starts aligned. *)
Definition rot_good (f m l : Z) : bool :=
  ((m - f <=? l - m) || (l - m =? 0) ||
   ((m mod 4 <=? m - f) && (negb ((l - m) mod 4 =? 0) || (f mod 4 =? 0))))%Z.

Section Spec.
  Context {T : Type}.
  Variable es : Z.
  Variable dflt : T.

  Definition seq_insert (l : list T) (ip : nat) (x : list T) : list T := firstn ip l ++ x ++ skipn ip l.
  Definition seq_erase (l : list T) (ep n : nat) : list T := firstn ep l ++ skipn (ep + n) l.
  Definition seq_resize (l : list T) (n : nat) (x : T) : list T := firstn n l ++ repeat x (n - length l).

  Definition seq_step (l : list T) (o : vop T) : list T :=
    match o with
    | OpPushBack x => l ++ [x]
    | OpPopBack => removelast l
    | OpInsert ip x => seq_insert l ip [x]
    | OpInsertN ip n x => seq_insert l ip (repeat x n)
    | OpInsertRange ip x => seq_insert l ip x
    | OpErase ep n => seq_erase l ep n
    | OpResize n => seq_resize l n dflt
    | OpResizeWith n x => seq_resize l n x
    | OpAssign x => x
    | OpAssignN n x => repeat x n
    | OpClear | OpDeallocate => []
    | OpReserve _ _ | OpShrink => l
    end.

  (** What the caller must guarantee: positions inside the sequence and room
      for the result below 2^31 bytes. *)
  Definition op_pre (l : list T) (o : vop T) : Prop :=
    (es * Z.of_nat (length (seq_step l o)) <= 2 ^ 31)%Z /\
    match o with
    | OpPopBack => l <> []
    | OpInsert ip _ | OpInsertN ip _ _ | OpInsertRange ip _ => ip <= length l
    | OpErase ep n => ep + n <= length l
    | OpReserve n _ => (es * Z.of_nat n <= 2 ^ 31)%Z
    | _ => True
    end.

  (** Whether the byte moves of the operation are among the right ones. *)
  Definition op_moves_ok (l : list T) (o : vop T) : bool :=
    let off i := (es * Z.of_nat i)%Z in
    let n := length l in
    match o with
    | OpInsert ip _ => rot_good (off ip) (off n) (off (n + 1))
    | OpInsertN ip k _ => rot_good (off ip) (off n) (off (n + k))
    | OpInsertRange ip x => rot_good (off ip) (off n) (off (n + length x))
    | OpErase ep k => rot_good (off ep) (off (ep + k)) (off n)
    | _ => true
    end.

  Fixpoint seq_run (l : list T) (ops : list (vop T)) : list T :=
    match ops with
    | [] => l
    | o :: t => seq_run (seq_step l o) t
    end.
  Fixpoint ops_pre (l : list T) (ops : list (vop T)) : Prop :=
    match ops with
    | [] => True
    | o :: t => op_pre l o /\ ops_pre (seq_step l o) t
    end.
  Fixpoint ops_moves_ok (l : list T) (ops : list (vop T)) : bool :=
    match ops with
    | [] => true
    | o :: t => op_moves_ok l o && ops_moves_ok (seq_step l o) t
    end.
End Spec.
