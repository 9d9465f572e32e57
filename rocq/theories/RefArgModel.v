(** * RefArgModel: arguments passed by reference that are elements of the object worked on.

    Many functions take a value as [const T&].  If the caller passes an
    element of the very range or container, the function reads that element
    again at every use, after it may have been overwritten, moved, destroyed
    or freed.  [arg] says where the argument lives. *)
From Verif Require Import Base UtilModel StoreModel VectorModel.
From Coq Require Import ZArith.
Local Open Scope nat_scope.

Inductive arg (T : Type) : Type :=
| Val (v : T)                (* a variable of the caller *)
| Elem (k : nat).            (* element [k] of the range *)
Arguments Val {T} v.
Arguments Elem {T} k.

Section Algo.
  Context {T : Type}.
  Definition deref (a : list T) (r : arg T) : outcome T :=
    match r with Val v => Ok v | Elem k => rd a k end.

  (** utuple.h:56-63 and uarray.h:70-73 [operator+= (const_reference v)] and
      the like, umatrix.h:50-53 through them:
      [for (i = 0; i < N; ++ i) _v[i] += v]. *)
  Fixpoint op_loop (f : T -> T -> T) (a : list T) (r : arg T) (n i : nat) : outcome (list T) :=
    match n with
    | O => Ok a
    | S n' => x <- rd a i ;; v <- deref a r ;; a <- wr a i (f x v) ;; op_loop f a r n' (i + 1)
    end.
  Definition op_assign (f : T -> T -> T) (a : list T) (r : arg T) : outcome (list T) := op_loop f a r (length a) 0.
  (** utuple.h:64-71 and uarray.h:74-77 [operator+ (const_reference v)] and the like:
      [tuple result; for (...) result[i] = _v[i] + v]; [res] is the storage of the result. *)
  Fixpoint op_new_loop (f : T -> T -> T) (a : list T) (r : arg T) (res : list T) (n i : nat) : outcome (list T) :=
    match n with
    | O => Ok res
    | S n' => x <- rd a i ;; v <- deref a r ;; res <- wr res i (f x v) ;; op_new_loop f a r res n' (i + 1)
    end.
  Definition op_new (dflt : T) (f : T -> T -> T) (a : list T) (r : arg T) : outcome (list T) :=
    op_new_loop f a r (repeat dflt (length a)) (length a) 0.
  (** umatrix.h:54-61 [operator+ (const_reference v)] and the like:
      [matrix result (star this); result += v] - the argument is in the old object. *)
  Definition matrix_op (f : T -> T -> T) (a : list T) (r : arg T) : outcome (list T) :=
    match r with
    | Val v => op_assign f a (Val v)
    | Elem k => match a with
                | [] => Ok []                    (* the loop never reads v *)
                | _ => v <- rd a k ;; op_assign f a (Val v)
                end
    end.

  (** ualgobase.h:133-137 [fill]; also array::fill (uarray.h:78). *)
  Fixpoint fill_loop (a : list T) (r : arg T) (n i : nat) : outcome (list T) :=
    match n with
    | O => Ok a
    | S n' => v <- deref a r ;; a <- wr a i v ;; fill_loop a r n' (i + 1)
    end.
  (** ualgo.h:129-135 [replace]. *)
  Fixpoint replace_loop (eqb : T -> T -> bool) (a : list T) (old new : arg T) (n i : nat) : outcome (list T) :=
    match n with
    | O => Ok a
    | S n' =>
        x <- rd a i ;; o <- deref a old ;;
        a <- (if eqb x o then w <- deref a new ;; wr a i w else Ok a) ;;
        replace_loop eqb a old new n' (i + 1)
    end.
  Definition replace_arg (eqb : T -> T -> bool) (a : list T) (old new : arg T) : outcome (list T) :=
    replace_loop eqb a old new (length a) 0.
  (** upredalgo.h:101-107 [replace_if]. *)
  Fixpoint replace_if_loop (p : T -> bool) (a : list T) (new : arg T) (n i : nat) : outcome (list T) :=
    match n with
    | O => Ok a
    | S n' =>
        x <- rd a i ;;
        a <- (if p x then w <- deref a new ;; wr a i w else Ok a) ;;
        replace_if_loop p a new n' (i + 1)
    end.
  Definition replace_if_arg (p : T -> bool) (a : list T) (new : arg T) : outcome (list T) :=
    replace_if_loop p a new (length a) 0.
End Algo.

Section Vec.
  Context {T : Type}.
  Variable e : env.
  Variable es : Z.
  Variable dflt : T.

  (** umemory.h:440-478 [uninitialized_fill], [uninitialized_copy] at [i] from
      the cells [srcs] of the same block, each read when it is needed. *)
  Fixpoint construct_from (cells : list (option T)) (i : nat) (srcs : list nat) : outcome (list (option T)) :=
    match srcs with
    | [] => Ok cells
    | s :: t => c <- rd cells s ;;
                match c with
                | None => UB
                | Some x => cells <- construct cells i [x] ;; construct_from cells (S i) t
                end
    end.
  (** ualgobase.h [copy], [fill] at [i] from the cells [srcs]. *)
  Fixpoint assign_from (cells : list (option T)) (i : nat) (srcs : list nat) : outcome (list (option T)) :=
    match srcs with
    | [] => Ok cells
    | s :: t => c <- rd cells s ;;
                match c with
                | None => UB
                | Some x => cells <- assign_cells cells i [x] ;; assign_from cells (S i) t
                end
    end.

  (** uvector.h:165-175 [v.resize (n, v[i])]. *)
  Definition resize_own (v : vec T) (n i : nat) : outcome (vec T) :=
    ' (v', moved) <- vreserve_bytes e es v (bytes es n) false ;;
    cells <- (if n <? vsize v then destroy (vcells v') n (vsize v - n)
              else if moved then UB
              else construct_from (vcells v') (vsize v) (repeat i (n - vsize v))) ;;
    Ok (mkvec cells n (vcap v')).
  (** uvector.h:276-281 [v.insert (v.begin()+ip, n, v[i])]. *)
  Definition insert_n_own (v : vec T) (ip n i : nat) : outcome (vec T) :=
    ' (v', moved) <- insert_hole e es v ip n ;;
    if moved then UB else
    cells <- construct_from (vcells v') ip (repeat i n) ;;
    Ok (mkvec cells (vsize v') (vcap v')).
  (** uvector.h:293-300 [v.insert (v.begin()+ip, v.begin()+i, v.begin()+j)]. *)
  Definition insert_range_own (v : vec T) (ip i j : nat) : outcome (vec T) :=
    if j <? i then UB else
    ' (v', moved) <- insert_hole e es v ip (j - i) ;;
    if moved then UB else
    cells <- construct_from (vcells v') ip (seq i (j - i)) ;;
    Ok (mkvec cells (vsize v') (vcap v')).
  (** uvector.h:151-161 [resize (n)], remembering whether the block was
      reallocated. *)
  Definition resize_moved (v : vec T) (n : nat) : outcome (vec T * bool) :=
    ' (_, moved) <- vreserve_bytes e es v (bytes es n) false ;;
    v' <- resize e es dflt v n ;; Ok (v', moved).
  (** uvector.h:242-246 [v.assign (n, v[i])]. *)
  Definition assign_n_own (v : vec T) (n i : nat) : outcome (vec T) :=
    ' (v', moved) <- resize_moved v n ;;
    if moved then UB else
    cells <- assign_from (vcells v') 0 (repeat i n) ;;
    Ok (mkvec cells (vsize v') (vcap v')).
  (** uvector.h:233-238 [v.assign (v.begin()+i, v.begin()+j)]. *)
  Definition assign_range_own (v : vec T) (i j : nat) : outcome (vec T) :=
    if j <? i then UB else
    ' (v', moved) <- resize_moved v (j - i) ;;
    if moved then UB else
    cells <- assign_from (vcells v') 0 (seq i (j - i)) ;;
    Ok (mkvec cells (vsize v') (vcap v')).
End Vec.
