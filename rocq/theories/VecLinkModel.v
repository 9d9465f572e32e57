(** * VecLinkModel: vectors linked to somebody else's elements.

    [link (p, n)] makes a vector show [n] elements of an array of the caller
    without owning them: capacity() stays 0.  The first operation that needs
    storage allocates a block and copies the linked bytes into it; an object in
    the array and its copy in the block then hold the same resource.

    [larr] is the caller's array (its storage ends after the last cell), [None]
    a cell whose object has been destroyed.  [lnk]: the vector is linked and its
    elements are the first [vsize lv] cells of the array; otherwise [lv] is a
    vector of VectorModel.  [lrel] collects the elements whose destructor has
    run, or whose value has been overwritten by an assignment, through the
    vector; the most recent first. *)
From Verif Require Import Base UtilModel StoreModel VectorModel.
From Coq Require Import ZArith.
Local Open Scope nat_scope.

Section VecLink.
  Context {T : Type}.
  Variable e : env.
  Variable es : Z.                 (* sizeof(T) *)
  Variable dflt : T.               (* T() *)
  Variable plain : bool.           (* numeric_limits<T>::is_integral *)

  Record lvec := mklv { larr : list (option T); lnk : bool; lv : vec T; lrel : list T }.

  (** uvector.h:99-104 [link], cmemlink.cc:31-36, on a vector that owns nothing. *)
  Definition l_link (a : list T) (n : nat) : lvec := mklv (map Some a) true (mkvec [] n 0%Z) [].

  Definition somes (c : list (option T)) : list T :=
    flat_map (fun x => match x with Some y => [y] | None => [] end) c.
  Definition cells_of (s : lvec) : list (option T) := if lnk s then larr s else vcells (lv s).

  (** umemory.h:371-409 [destroy] of the cells [i, i+n) of the caller's array:
      nothing for built-in types. *)
  Definition destroy_arr (s : lvec) (i n : nat) : outcome lvec :=
    if plain then Ok s else
    a <- destroy (larr s) i n ;;
    Ok (mklv a (lnk s) (lv s) (rev (somes (slice (larr s) i (i + n))) ++ lrel s)).

  (** memblock.cc:80-95 [reserve (newSize)] of a linked block: a new block, into
      which min (size()+1, newSize) bytes are copied; the size stays. *)
  Definition adopt (s : lvec) (newSize : Z) (exact : bool) : outcome lvec :=
    if (newSize <=? 0)%Z then Ok s else
    let newSize := if exact then newSize else next_pow2 newSize in
    if negb (malloc_ok e newSize) then Exn bad_alloc else
    let n := vsize (lv s) in
    if (es * Z.of_nat (length (larr s)) <? Z.min (es * Z.of_nat n + 1) newSize)%Z then UB else
    Ok (mklv (larr s) false
             (mkvec (realloc_cells (firstn n (larr s)) (Z.to_nat (newSize / es))) n newSize)
             (lrel s)).

  (** What an operation on a vector that owns its block destroys or overwrites:
      uvector.h:83, 84, 151-183, 233-246, 304-309. *)
  Definition releases (v : vec T) (o : vop T) : list T :=
    let part i n := somes (slice (vcells v) i (i + n)) in
    match o with
    | OpPopBack => part (vsize v - 1) 1
    | OpErase ep n => part ep n
    | OpResize n | OpResizeWith n _ => part n (vsize v - n)
    | OpAssign _ | OpAssignN _ _ | OpClear | OpDeallocate => part 0 (vsize v)
    | _ => []
    end.
  Definition owned_step (s : lvec) (o : vop T) : outcome lvec :=
    v' <- vstep e es dflt (lv s) o ;;
    Ok (mklv (larr s) (lnk s) v' (if plain then lrel s else rev (releases (lv s) o) ++ lrel s)).

  (** uvector.h:151-175 [resize] to fewer elements after the block was taken
      over.  The block has room for the new size only; destroying the elements
      behind it does nothing for built-in types and touches cells outside the
      block for others. *)
  Definition cut (s : lvec) (n : nat) : outcome lvec :=
    if plain
    then let v := lv s in
         Ok (mklv (larr s) (lnk s)
                  (mkvec (firstn n (vcells v) ++ repeat None (length (vcells v) - n)) n (vcap v)) (lrel s))
    else owned_step s (OpResize n).
  Definition linked_resize (s : lvec) (n : nat) (x : T) : outcome lvec :=
    s' <- adopt s (bytes es n) false ;;
    if lnk s' then
      (* n is 0: reserve (0) returns at once *)
      s'' <- destroy_arr s' 0 (vsize (lv s')) ;;
      Ok (mklv (larr s'') true (mkvec [] 0 0%Z) (lrel s''))
    else if n <? vsize (lv s) then cut s' n else owned_step s' (OpResizeWith n x).
  (** uvector.h:233-246 [assign], [operator=] after the resize. *)
  Definition linked_assign (s : lvec) (l : list T) : outcome lvec :=
    s' <- linked_resize s (length l) dflt ;;
    if lnk s' then Ok s' else owned_step s' (OpAssign l).

  Definition linked_step (s : lvec) (o : vop T) : outcome lvec :=
    let n := vsize (lv s) in
    match o with
    | OpPopBack =>                                                   (* uvector.h:83 *)
        match n with
        | O => UB
        | S m => s' <- destroy_arr s m 1 ;; Ok (mklv (larr s') true (mkvec [] m 0%Z) (lrel s'))
        end
    | OpClear => Ok (mklv (larr s) true (mkvec [] 0 0%Z) (lrel s))    (* uvector.h:84, 126-127 *)
    | OpShrink => Ok s                                               (* memblock.cc:100-101 *)
    | OpDeallocate => Ok (mklv (larr s) true (mkvec [] 0 0%Z) (lrel s)) (* memblock.cc:36-44: unlink *)
    | OpReserve k b => adopt s (bytes es k) b                        (* uvector.h:134-137 *)
    | OpPushBack _ => s' <- adopt s (bytes es (n + 1)) false ;; owned_step s' o
    | OpInsert ip _ | OpInsertN ip _ _ | OpInsertRange ip _ =>       (* uvector.h:258-300 *)
        if n <? ip then UB else
        let k := match o with OpInsertN _ k _ => k | OpInsertRange _ l => length l | _ => 1 end in
        s' <- adopt s (bytes es (n + k)) false ;; if lnk s' then Ok s' else owned_step s' o
    | OpErase ep k =>                                                (* uvector.h:304-309 *)
        (* the destructors run before memblock::erase copies (memblock.cc:124) *)
        if n <? ep + k then UB else
        s1 <- adopt s (bytes es n) false ;;
        s2 <- (if lnk s1 then Ok s1 else
               v' <- vstep e es dflt (lv s1) o ;; Ok (mklv (larr s1) false v' (lrel s1))) ;;
        destroy_arr s2 ep k
    | OpResize k => linked_resize s k dflt
    | OpResizeWith k x => linked_resize s k x
    | OpAssign l => linked_assign s l
    | OpAssignN k x => linked_assign s (repeat x k)
    end.

  Inductive lop : Type := LOp (o : vop T) | LSet (i : nat) (x : T) | LCopyLink.
  Definition l_step (s : lvec) (o : lop) : outcome lvec :=
    match o with
    | LOp o => if lnk s then linked_step s o else owned_step s o
    (* uvector.h:74, 76: v[i] = x, an assignment *)
    | LSet i x =>
        if vsize (lv s) <=? i then UB else
        c <- rd (cells_of s) i ;;
        match c with
        | None => UB
        | Some old =>
            let rel := if plain then lrel s else old :: lrel s in
            if lnk s then a <- wr (larr s) i (Some x) ;; Ok (mklv a true (lv s) rel)
            else c <- wr (vcells (lv s)) i (Some x) ;;
                 Ok (mklv (larr s) false (mkvec c (vsize (lv s)) (vcap (lv s))) rel)
        end
    (* uvector.h:98 [copy_link], memblock.cc:57-60 *)
    | LCopyLink => if lnk s then adopt s (bytes es (vsize (lv s))) false
                   else ' (v, _) <- vreserve_bytes e es (lv s) (bytes es (vsize (lv s))) false ;;
                        Ok (mklv (larr s) false v (lrel s))
    end.
  Fixpoint l_run (s : lvec) (ops : list lop) : outcome lvec :=
    match ops with
    | [] => Ok s
    | o :: t => s' <- l_step s o ;; l_run s' t
    end.
  (** uvector.h:225-229 the destructor: a linked vector destroys nothing. *)
  Definition l_destructor (s : lvec) : outcome lvec :=
    if lnk s then Ok (mklv (larr s) true (mkvec [] 0 0%Z) (lrel s)) else owned_step s OpDeallocate.

  (** uvector.h:74-77 [at], in order. *)
  Fixpoint l_read (c : list (option T)) (i n : nat) : outcome (list T) :=
    match n with
    | O => Ok []
    | S n' => x <- rd c i ;;
              match x with
              | None => UB
              | Some y => t <- l_read c (S i) n' ;; Ok (y :: t)
              end
    end.
  Definition l_contents (s : lvec) : outcome (list T) := l_read (cells_of s) 0 (vsize (lv s)).
End VecLink.
Arguments lop : clear implicits.
Arguments lvec : clear implicits.
