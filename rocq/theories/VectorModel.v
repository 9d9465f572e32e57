(** * VectorModel: uvector.h over memblock.cc.

    A vector that is not linked to foreign memory: null or owning a block of
    [vcap] bytes, i.e. of [vcap / es] whole cells, [es] = sizeof(T).  A cell
    is [Some x] while a constructed object lives in it and [None] while it is
    raw storage.  Constructing over a live object, and assigning to,
    destroying or reading raw storage are [UB].

    Simplified: element constructors do not throw; arguments passed by
    reference are not elements of the vector itself, except in the [_own]
    variants; the link/manage functions are in MemblockModel. *)
From Verif Require Import Base UtilModel StoreModel.
From Coq Require Import ZArith.
Local Open Scope nat_scope.

Section Vector.
  Context {T : Type}.
  Variable e : env.
  Variable es : Z.                 (* sizeof(T) *)
  Variable dflt : T.               (* T() *)

  Record vec := mkvec { vcells : list (option T); vsize : nat; vcap : Z }.

  (** uvector.h:187-190 the default constructor. *)
  Definition vec_nil : vec := mkvec [] 0 0%Z.

  (** n*sizeof(T) in size_t. *)
  Definition bytes (n : nat) : Z := (es * Z.of_nat n)%Z.

  (** memblock.cc:80-95 [memblock::reserve] for a block that is not linked
      (minimumFreeCapacity() is 0); the return value says whether realloc ran. *)
  Definition vreserve_bytes (v : vec) (newSize : Z) (exact : bool) : outcome (vec * bool) :=
    if (newSize <=? vcap v)%Z then Ok (v, false) else
    let newSize := if exact then newSize else next_pow2 newSize in
    if malloc_ok e newSize
    then Ok (mkvec (realloc_cells (vcells v) (Z.to_nat (newSize / es))) (vsize v) newSize, true)
    else Exn bad_alloc.
  (** uvector.h:134-137 [reserve]. *)
  Definition vreserve (v : vec) (n : nat) (exact : bool) : outcome (vec * bool) :=
    vreserve_bytes v (bytes n) exact.

  (** umemory.h:314-316, 440-478 placement construction of the cells
      [i, i + length l): they must be raw. *)
  Fixpoint construct (cells : list (option T)) (i : nat) (l : list T) : outcome (list (option T)) :=
    match l with
    | [] => Ok cells
    | x :: t => c <- rd cells i ;;
                match c with
                | Some _ => UB
                | None => cells' <- wr cells i (Some x) ;; construct cells' (S i) t
                end
    end.
  (** ualgo.h / ualgobase.h [copy], [fill]: assignment to live cells. *)
  Fixpoint assign_cells (cells : list (option T)) (i : nat) (l : list T) : outcome (list (option T)) :=
    match l with
    | [] => Ok cells
    | x :: t => c <- rd cells i ;;
                match c with
                | None => UB
                | Some _ => cells' <- wr cells i (Some x) ;; assign_cells cells' (S i) t
                end
    end.
  (** umemory.h:370-409 [destroy], [destroy_n]: [n] cells from [i]. *)
  Fixpoint destroy (cells : list (option T)) (i n : nat) : outcome (list (option T)) :=
    match n with
    | O => Ok cells
    | S n' => c <- rd cells i ;;
              match c with
              | None => UB
              | Some _ => cells' <- wr cells i None ;; destroy cells' (S i) n'
              end
    end.

  (** uvector.h:140-147 [append_hole]: the offset of the hole. *)
  Definition append_hole (v : vec) (n : nat) : outcome (vec * nat * bool) :=
    ' (v', moved) <- vreserve_bytes v (bytes (vsize v + n)) false ;;
    Ok (mkvec (vcells v') (vsize v + n) (vcap v'), vsize v, moved).

  (** uvector.h:321-324 [push_back] of a value outside the vector. *)
  Definition push_back (v : vec) (x : T) : outcome vec :=
    ' (v', hp, _) <- append_hole v 1 ;;
    cells <- construct (vcells v') hp [x] ;;
    Ok (mkvec cells (vsize v') (vcap v')).
  (** uvector.h:321-324 [push_back(v[i])]: the reference is read after
      append_hole; if the block was reallocated it dangles. *)
  Definition push_back_own (v : vec) (i : nat) : outcome vec :=
    ' (v', hp, moved) <- append_hole v 1 ;;
    if moved then UB else
    c <- rd (vcells v') i ;;
    match c with
    | None => UB
    | Some x => cells <- construct (vcells v') hp [x] ;;
                Ok (mkvec cells (vsize v') (vcap v'))
    end.
  (** uvector.h:83 [pop_back]. *)
  Definition pop_back (v : vec) : outcome vec :=
    match vsize v with
    | O => UB
    | S n => cells <- destroy (vcells v) n 1 ;; Ok (mkvec cells n (vcap v))
    end.

  (** uvector.h:258-263 [insert_hole] with memblock.cc:110-117
      [memblock::insert] (whose resize finds the space reserved) and
      memlink.h:75-82 [memlink::insert]. *)
  Definition insert_hole (v : vec) (ip n : nat) : outcome (vec * bool) :=
    if vsize v <? ip then UB else
    ' (v', moved) <- vreserve v (vsize v + n) false ;;
    ' (v'', _) <- vreserve_bytes v' (bytes (vsize v + n)) false ;;
    cells <- rotate_cells e es (malloc_at e (vcap v'')) (vcells v'') ip (vsize v) (vsize v + n) ;;
    Ok (mkvec cells (vsize v + n) (vcap v''), moved).
  (** uvector.h:276-290 [insert (ip, n, x)], [insert (ip, x)] (n = 1) and
      uvector.h:293-300 [insert (ip, i1, i2)]. *)
  Definition insert_list (v : vec) (ip : nat) (l : list T) : outcome vec :=
    ' (v', _) <- insert_hole v ip (length l) ;;
    cells <- construct (vcells v') ip l ;;
    Ok (mkvec cells (vsize v') (vcap v')).
  Definition insert_n (v : vec) (ip n : nat) (x : T) : outcome vec := insert_list v ip (repeat x n).
  Definition insert1 (v : vec) (ip : nat) (x : T) : outcome vec := insert_list v ip [x].
  (** uvector.h:284-290 [insert (ip, v[i])]: the reference keeps naming the
      cell [i] while the contents move. *)
  Definition insert_own (v : vec) (ip i : nat) : outcome vec :=
    ' (v', moved) <- insert_hole v ip 1 ;;
    if moved then UB else
    c <- rd (vcells v') i ;;
    match c with
    | None => UB
    | Some x => cells <- construct (vcells v') ip [x] ;;
                Ok (mkvec cells (vsize v') (vcap v'))
    end.

  (** uvector.h:304-317 [erase] with memblock.cc:120-129 and memlink.h:86-93. *)
  Definition erase (v : vec) (ep n : nat) : outcome vec :=
    cells <- destroy (vcells v) ep n ;;
    let v := mkvec cells (vsize v) (vcap v) in
    if vsize v <? ep + n then UB else
    ' (v, _) <- vreserve_bytes v (bytes (vsize v)) false ;;
    cells <- rotate_cells e es (malloc_at e (vcap v)) (vcells v) ep (ep + n) (vsize v) ;;
    Ok (mkvec cells (vsize v - n) (vcap v)).

  (** uvector.h:165-175 [resize (n, x)]. *)
  Definition resize_with (v : vec) (n : nat) (x : T) : outcome vec :=
    ' (v', _) <- vreserve_bytes v (bytes n) false ;;
    cells <- (if n <? vsize v then destroy (vcells v') n (vsize v - n)
              else construct (vcells v') (vsize v) (repeat x (n - vsize v))) ;;
    Ok (mkvec cells n (vcap v')).
  (** uvector.h:151-161 [resize (n)]. *)
  Definition resize (v : vec) (n : nat) : outcome vec := resize_with v n dflt.

  (** uvector.h:233-238 [assign (i1, i2)], 250-254 [operator=]. *)
  Definition assign (v : vec) (l : list T) : outcome vec :=
    v' <- resize v (length l) ;;
    cells <- assign_cells (vcells v') 0 l ;;
    Ok (mkvec cells (vsize v') (vcap v')).
  (** uvector.h:242-246 [assign (n, x)]. *)
  Definition assign_n (v : vec) (n : nat) (x : T) : outcome vec := assign v (repeat x n).

  (** uvector.h:126-127 [destroy_all]. *)
  Definition destroy_all (v : vec) : outcome vec :=
    if (vcap v =? 0)%Z then Ok v else
    cells <- destroy (vcells v) 0 (vsize v) ;; Ok (mkvec cells (vsize v) (vcap v)).
  (** uvector.h:84 [clear] with memblock.cc:28-33. *)
  Definition clear (v : vec) : outcome vec :=
    v' <- destroy_all v ;; Ok (mkvec (vcells v') 0 (vcap v')).
  (** uvector.h:179-183 [deallocate] with memblock.cc:36-44. *)
  Definition deallocate (v : vec) : outcome vec :=
    v' <- destroy_all v ;; Ok vec_nil.
  (** uvector.h:85 [shrink_to_fit] with memblock.cc:98-107; realloc to zero
      bytes frees the block and returns null. *)
  Definition shrink_to_fit (v : vec) : outcome vec :=
    if (vcap v =? 0)%Z then Ok v else
    if Nat.eqb (vsize v) 0 then Ok vec_nil else
    if malloc_ok e (bytes (vsize v))
    then Ok (mkvec (realloc_cells (vcells v) (vsize v)) (vsize v) (bytes (vsize v)))
    else Exn bad_alloc.

  (** uvector.h:201-222 the copying constructors: construction in a hole. *)
  Definition vec_of (l : list T) : outcome vec :=
    ' (v', hp, _) <- append_hole vec_nil (length l) ;;
    cells <- construct (vcells v') hp l ;;
    Ok (mkvec cells (vsize v') (vcap v')).

  (** uvector.h:54 [size], 53 [capacity] (in bytes here), 74-75 [at]. *)
  Definition vat (v : vec) (i : nat) : outcome T :=
    if i <? vsize v then
      c <- rd (vcells v) i ;; match c with Some x => Ok x | None => UB end
    else UB.
  (** The elements in order, read through [at]. *)
  Fixpoint read_from (v : vec) (i n : nat) : outcome (list T) :=
    match n with
    | O => Ok []
    | S n' => x <- vat v i ;; t <- read_from v (S i) n' ;; Ok (x :: t)
    end.
  Definition contents (v : vec) : outcome (list T) := read_from v 0 (vsize v).

  Inductive vop : Type :=
  | OpPushBack (x : T) | OpPopBack
  | OpInsert (ip : nat) (x : T) | OpInsertN (ip n : nat) (x : T) | OpInsertRange (ip : nat) (l : list T)
  | OpErase (ep n : nat) | OpResize (n : nat) | OpResizeWith (n : nat) (x : T)
  | OpAssign (l : list T) | OpAssignN (n : nat) (x : T)
  | OpClear | OpReserve (n : nat) (exact : bool) | OpShrink | OpDeallocate.

  Definition vstep (v : vec) (o : vop) : outcome vec :=
    match o with
    | OpPushBack x => push_back v x
    | OpPopBack => pop_back v
    | OpInsert ip x => insert1 v ip x
    | OpInsertN ip n x => insert_n v ip n x
    | OpInsertRange ip l => insert_list v ip l
    | OpErase ep n => erase v ep n
    | OpResize n => resize v n
    | OpResizeWith n x => resize_with v n x
    | OpAssign l => assign v l
    | OpAssignN n x => assign_n v n x
    | OpClear => clear v
    | OpReserve n b => ' (v', _) <- vreserve v n b ;; Ok v'
    | OpShrink => shrink_to_fit v
    | OpDeallocate => deallocate v
    end.
  Fixpoint vrun (v : vec) (ops : list vop) : outcome vec :=
    match ops with
    | [] => Ok v
    | o :: t => v' <- vstep v o ;; vrun v' t
    end.
End Vector.
Arguments vec : clear implicits.
Arguments vop : clear implicits.
