(** * VecExcModel: vectors when allocations fail and elements throw.

    The vector of VectorModel again, with what an exception leaves behind.
    The world answers every call of realloc and every construction or
    assignment of an element: [true] it succeeds, [false] it throws; when the
    answers run out everything succeeds.  [xlive] counts the element objects
    constructed and not yet destroyed.  An element whose constructor throws is
    not constructed; an assignment that throws leaves the old value.
    Destructors do not throw. *)
From Verif Require Import Base UtilModel StoreModel VectorModel.
From Coq Require Import ZArith.
Local Open Scope nat_scope.

(** How a call ends. *)
Inductive ending (A : Type) : Type := Returned (a : A) | NoMemory | ElementThrew.
Arguments Returned {A} a. Arguments NoMemory {A}. Arguments ElementThrew {A}.

Section VecExc.
  Context {T : Type}.
  Variable e : env.
  Variable es : Z.                 (* sizeof(T) *)
  Variable dflt : T.               (* T() *)

  Record xs := mkxs { xv : vec T; mans : list bool; eans : list bool; xlive : Z }.
  Definition xm (A : Type) : Type := xs -> outcome (xs * ending A).
  Definition xret {A} (a : A) : xm A := fun s => Ok (s, Returned a).
  Definition xbind {A B} (m : xm A) (k : A -> xm B) : xm B := fun s =>
    ' (s', r) <- m s ;;
    match r with Returned a => k a s' | NoMemory => Ok (s', NoMemory) | ElementThrew => Ok (s', ElementThrew) end.
  Definition xthen {A B} (m : xm A) (k : xm B) : xm B := xbind m (fun _ => k).
  Definition set_vec (v : vec T) : xm unit := fun s => Ok (mkxs v (mans s) (eans s) (xlive s), Returned tt).
  Definition get_vec : xm (vec T) := fun s => Ok (s, Returned (xv s)).
  (** realloc(3) and an element's constructor or assignment, answered by the world. *)
  Definition ask_mem : xm unit := fun s =>
    match mans s with
    | [] => Ok (s, Returned tt)
    | b :: t => Ok (mkxs (xv s) t (eans s) (xlive s), if b then Returned tt else NoMemory)
    end.
  Definition ask_elem : xm unit := fun s =>
    match eans s with
    | [] => Ok (s, Returned tt)
    | b :: t => Ok (mkxs (xv s) (mans s) t (xlive s), if b then Returned tt else ElementThrew)
    end.
  (** Write cell [i], which must be in the storage. *)
  Definition set_cell (i : nat) (c : option T) (d : Z) : xm unit := fun s =>
    cells <- wr (vcells (xv s)) i c ;;
    Ok (mkxs (mkvec cells (vsize (xv s)) (vcap (xv s))) (mans s) (eans s) (xlive s + d), Returned tt).
  Definition get_cell (i : nat) : xm (option T) := fun s => c <- rd (vcells (xv s)) i ;; Ok (s, Returned c).
  Definition fail_ub {A} : xm A := fun _ => UB.

  (** memblock.cc:80-95 [reserve]: throws before it changes anything. *)
  Definition x_reserve (newSize : Z) (exact : bool) : xm unit :=
    xbind get_vec (fun v =>
    if (newSize <=? vcap v)%Z then xret tt else
    let newSize := if exact then newSize else next_pow2 newSize in
    xthen ask_mem
      (set_vec (mkvec (realloc_cells (vcells v) (Z.to_nat (newSize / es))) (vsize v) newSize))).

  (** umemory.h:308-323, 334-347, 440-478 construction of the cells
      [i, i + length l), one after the other; nothing is undone when one
      throws.  An object already there is overwritten, not destroyed. *)
  Fixpoint x_construct (i : nat) (l : list T) : xm unit :=
    match l with
    | [] => xret tt
    | x :: t => xthen ask_elem (xthen (set_cell i (Some x) 1) (x_construct (S i) t))
    end.
  (** ualgobase.h [copy], [fill] by assignment. *)
  Fixpoint x_assign_cells (i : nat) (l : list T) : xm unit :=
    match l with
    | [] => xret tt
    | x :: t => xbind (get_cell i) (fun c =>
                match c with
                | None => fail_ub
                | Some _ => xthen ask_elem (xthen (set_cell i (Some x) 0) (x_assign_cells (S i) t))
                end)
    end.
  (** umemory.h:371-409 [destroy], [destroy_n]. *)
  Fixpoint x_destroy (i n : nat) : xm unit :=
    match n with
    | O => xret tt
    | S n' => xbind (get_cell i) (fun c =>
              match c with
              | None => fail_ub
              | Some _ => xthen (set_cell i None (-1)) (x_destroy (S i) n')
              end)
    end.
  (** memlink.h [resize]. *)
  Definition x_set_size (n : nat) : xm unit :=
    xbind get_vec (fun v => set_vec (mkvec (vcells v) n (vcap v))).

  (** uvector.h:140-147 [append_hole]: the size grows before the element is
      constructed. *)
  Definition x_append_hole (n : nat) : xm nat :=
    xbind get_vec (fun v =>
    xthen (x_reserve (bytes es (vsize v + n)) false)
    (xthen (x_set_size (vsize v + n)) (xret (vsize v)))).
  (** uvector.h:321-324 [push_back]. *)
  Definition x_push_back (x : T) : xm unit := xbind (x_append_hole 1) (fun hp => x_construct hp [x]).
  (** uvector.h:83 [pop_back]. *)
  Definition x_pop_back : xm unit :=
    xbind get_vec (fun v =>
    match vsize v with O => fail_ub | S n => xthen (x_destroy n 1) (x_set_size n) end).
  (** uvector.h:258-263 [insert_hole], memblock.cc:110-117, memlink.h:75-82. *)
  Definition x_insert_hole (ip n : nat) : xm unit :=
    xbind get_vec (fun v =>
    if vsize v <? ip then fail_ub else
    xthen (x_reserve (bytes es (vsize v + n)) false)
    (xthen (x_reserve (bytes es (vsize v + n)) false)
    (xbind get_vec (fun v' => fun s =>
       cells <- rotate_cells e es (malloc_at e (vcap v')) (vcells v') ip (vsize v) (vsize v + n) ;;
       set_vec (mkvec cells (vsize v + n) (vcap v')) s)))).
  (** uvector.h:276-300 the three forms of [insert]. *)
  Definition x_insert (ip : nat) (l : list T) : xm unit :=
    xthen (x_insert_hole ip (length l)) (x_construct ip l).
  (** uvector.h:304-317 [erase]; memblock.cc:120-129. *)
  Definition x_erase (ep n : nat) : xm unit :=
    xthen (x_destroy ep n)
    (xbind get_vec (fun v =>
    if vsize v <? ep + n then fail_ub else
    xthen (x_reserve (bytes es (vsize v)) false)
    (xbind get_vec (fun v => fun s =>
       cells <- rotate_cells e es (malloc_at e (vcap v)) (vcells v) ep (ep + n) (vsize v) ;;
       set_vec (mkvec cells (vsize v - n) (vcap v)) s)))).
  (** uvector.h:151-175 [resize]. *)
  Definition x_resize (n : nat) (x : T) : xm unit :=
    xthen (x_reserve (bytes es n) false)
    (xbind get_vec (fun v =>
    xthen (if n <? vsize v then x_destroy n (vsize v - n)
           else x_construct (vsize v) (repeat x (n - vsize v)))
    (x_set_size n))).
  (** uvector.h:233-254 [assign], [operator=]. *)
  Definition x_assign (l : list T) : xm unit :=
    xthen (x_resize (length l) dflt) (x_assign_cells 0 l).
  (** uvector.h:126-127 [destroy_all], 84 [clear], 179-183 [deallocate] and
      the destructor 225-228. *)
  Definition x_destroy_all : xm unit :=
    xbind get_vec (fun v => if (vcap v =? 0)%Z then xret tt else x_destroy 0 (vsize v)).
  Definition x_clear : xm unit := xthen x_destroy_all (x_set_size 0).
  Definition x_deallocate : xm unit := xthen x_destroy_all (set_vec vec_nil).
  (** uvector.h:85 [shrink_to_fit], memblock.cc:98-107. *)
  Definition x_shrink : xm unit :=
    xbind get_vec (fun v =>
    if (vcap v =? 0)%Z then xret tt else
    if Nat.eqb (vsize v) 0 then set_vec vec_nil else
    xthen ask_mem (set_vec (mkvec (realloc_cells (vcells v) (vsize v)) (vsize v) (bytes es (vsize v))))).

  Definition xstep (o : vop T) : xm unit :=
    match o with
    | OpPushBack x => x_push_back x
    | OpPopBack => x_pop_back
    | OpInsert ip x => x_insert ip [x]
    | OpInsertN ip n x => x_insert ip (repeat x n)
    | OpInsertRange ip l => x_insert ip l
    | OpErase ep n => x_erase ep n
    | OpResize n => x_resize n dflt
    | OpResizeWith n x => x_resize n x
    | OpAssign l => x_assign l
    | OpAssignN n x => x_assign (repeat x n)
    | OpClear => x_clear
    | OpReserve n b => x_reserve (bytes es n) b
    | OpShrink => x_shrink
    | OpDeallocate => x_deallocate
    end.

  (** A program that uses the vector: after every operation it goes on in one
      way if the operation returned and in another if it threw. *)
  Inductive prog : Type := Stop | Do (o : vop T) (returned threw : prog).
  Fixpoint xprog (p : prog) (s : xs) : outcome xs :=
    match p with
    | Stop => Ok s
    | Do o k kt => ' (s', r) <- xstep o s ;;
                   match r with Returned _ => xprog k s' | _ => xprog kt s' end
    end.

  (** uvector.h:201-222 the copying constructors.  If they throw, the member
      _data is destroyed (memblock.cc:19 frees the storage), the elements are
      not; [None]: no vector. *)
  Definition x_new (l : list T) (mem el : list bool) : outcome (option (vec T) * Z) :=
    ' (s, r) <- xbind (x_append_hole (length l)) (fun hp => x_construct hp l) (mkxs vec_nil mem el 0) ;;
    Ok (match r with Returned _ => Some (xv s) | _ => None end, xlive s).
End VecExc.
Arguments xs : clear implicits.
Arguments prog : clear implicits.
