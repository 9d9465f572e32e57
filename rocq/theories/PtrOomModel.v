(** * PtrOomModel: shared_ptr when there is no memory for the block with the
    count, and the comparisons of the smart pointers. *)
From Verif Require Import Base PtrModel.
From Coq Require Import ZArith.

(** An operation, and whether [new container] in it succeeds. *)
Definition memop : Type := shop * bool.
(** What it does: what it deletes, its value, whether it throws bad_alloc. *)
Definition memres : Type := pres * bool.
(** umemory.h:177 and 184-190 with a [new container (p)] that throws:
    the constructor leaves no variable; in reset, 185-186 have run, and _p
    (187) is assigned only after new returned.  Other operations allocate
    nothing.  make_shared (umemory.h:209-211) is [ShOf]. *)
Definition mem_step (s : shst) (ob : memop) : outcome (shst * memres) :=
  let ok := ' (s', r) <- sh_step s (fst ob) ;; Ok (s', (r, false)) in
  if snd ob then ok else
  match fst ob with
  | ShOf i _ => _ <- vacant (sh_vars s) i ;; Ok (s, (([], PNone), true))
  | ShReset i (Some p) =>
      ov <- live (sh_vars s) i ;;
      g <- sh_get (sh_conts s) ov ;;
      if match g with Some b => Nat.eqb p b | None => false end then UB else
      Ok (s, (([], PNone), true))
  | _ => ok
  end.


(** ** Comparisons.  [addr] gives the address of an object; null is 0. *)
Section Compare.
  Variable addr : obj -> Z.
  Definition address (p : option obj) : Z := match p with Some o => addr o | None => 0 end.
  (** umemory.h:53 [auto_ptr], 94, 126 [unique_ptr] ==. *)
  Definition ptr_eq (p q : option obj) : bool := Z.eqb (address p) (address q).
  (** umemory.h:85, 117 [unique_ptr] conversion to bool. *)
  Definition ptr_bool (p : option obj) : bool := negb (Z.eqb (address p) 0).
  (** umemory.h:95, 127 [unique_ptr] <. *)
  Definition ptr_lt (p q : option obj) : bool := Z.ltb (address p) (address q).
  (** umemory.h:54 [auto_ptr] <. *)
  Definition auto_lt (p q : option obj) : bool := Z.ltb (address q) (address p).
  (** umemory.h:201, 202, 192 [shared_ptr]: variables [i], [j] of a program, by get(). *)
  Definition sh_cmp (f : option obj -> option obj -> bool) (s : shst) (i j : nat) : outcome bool :=
    p <- live (sh_vars s) i ;; q <- live (sh_vars s) j ;;
    a <- sh_get (sh_conts s) p ;; b <- sh_get (sh_conts s) q ;; Ok (f a b).
  Definition sh_eq := sh_cmp ptr_eq.
  Definition sh_lt := sh_cmp ptr_lt.
  Definition sh_bool (s : shst) (i : nat) : outcome bool :=
    p <- live (sh_vars s) i ;; a <- sh_get (sh_conts s) p ;; Ok (ptr_bool a).
End Compare.
