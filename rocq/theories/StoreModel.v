(** * StoreModel: rotating the cells of an allocated block with rotate_fast.

    A block of storage holds [n] cells of [es] bytes each, starting at the
    address [base].  memlink::insert and memlink::erase (memlink.h:75-93) move
    cells by calling rotate on char pointers, which is the overload of
    ualgo.h:218-223, rotate_fast.  Here that very function (ByteModel) runs on
    a memory in which the byte [j] of cell [i] is the fragment [(i, j)]; the
    cells are then read back.  A cell whose bytes are no longer those of one
    original cell in order ("torn") makes the outcome [UB]: using it as an
    object is undefined behaviour.  With [es = 1] no cell can be torn. *)
From Verif Require Import Base UtilModel ByteModel.
From Coq Require Import ZArith.
Local Open Scope Z_scope.

(** Where malloc puts a block of the given number of bytes, whether it
    succeeds for it, and where alloca puts the temporary buffer. *)
Record env := mkenv { malloc_at : Z -> Z; malloc_ok : Z -> bool; stack_at : Z }.

Definition frag : Type := (nat * nat)%type.

(** The memory rotate_fast sees: the block and the alloca buffer. *)
Definition frag_mem (es base n buf hmin : Z) : mem frag :=
  fun a =>
    if (base <=? a) && (a <? base + es * n)
    then Some (Z.to_nat ((a - base) / es), Z.to_nat ((a - base) mod es))
    else if (buf <=? a) && (a <? buf + hmin) then Some (O, O) else None.

(** All [es] bytes from address [a] are the fragments of cell [k], in order. *)
Fixpoint frags_of (m : mem frag) (a : Z) (k : nat) (j todo : nat) : bool :=
  match todo with
  | O => true
  | S t => match m (a + Z.of_nat j) with
           | Some (k', j') => Nat.eqb k' k && Nat.eqb j' j && frags_of m a k (S j) t
           | None => false
           end
  end.
(** Reading the cell at address [a]. *)
Definition gather {A} (es : Z) (cells : list A) (m : mem frag) (a : Z) : outcome A :=
  match m a with
  | Some (k, _) => if frags_of m a k 0 (Z.to_nat es) then rd cells k else UB
  | None => UB
  end.
Fixpoint gather_from {A} (es : Z) (cells : list A) (m : mem frag) (a : Z) (n : nat) : outcome (list A) :=
  match n with
  | O => Ok []
  | S n' => x <- gather es cells m a ;;
            t <- gather_from es cells m (a + es) n' ;;
            Ok (x :: t)
  end.

(** ualgo.h:218-223 [rotate] on cells [first, middle, last) of the block. *)
Definition rotate_cells {A} (e : env) (es base : Z) (cells : list A) (first middle last : nat) : outcome (list A) :=
  let at_ i := base + es * Z.of_nat i in
  let n := length cells in
  let hmin := es * Z.min (Z.of_nat (middle - first)) (Z.of_nat (last - middle)) in
  m <- rotate_fast (stack_at e) (frag_mem es base (Z.of_nat n) (stack_at e) hmin)
         (at_ first) (at_ middle) (at_ last) ;;
  gather_from es cells m base n.

(** Bitwise copy of the old cells by realloc(3): the first ones survive, new
    ones are indeterminate. *)
Definition realloc_cells {A} (cells : list (option A)) (n : nat) : list (option A) :=
  firstn n cells ++ repeat None (n - length cells).
