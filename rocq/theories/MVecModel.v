(** * MVecModel: programs with several vectors: assignment, copying, moving,
    insertion of one vector's elements into another, and the container
    algorithms of uctralgo.h that have a source and a target.

    A vector is a [vec] (VectorModel), with its own block of memory; a program
    works on a list of them, named by their number.  The memory of the blocks
    themselves is modelled in MemModel. *)
From Coq Require Import ZArith.
From Verif Require Import Base StoreModel VectorModel RefArgModel RangeModel ArrayModel ListModel IterModel CtrModel.
Local Open Scope nat_scope.

Section MVec.
  Context {T : Type}.
  Variable e : env.
  Variable es : Z.
  Variable dflt : T.
  Variable eqb lt : T -> T -> bool.
  Variable qs : (T -> T -> Z) -> list T -> list T.   (* qsort(3) *)

  Inductive mop : Type :=
  | MvOn (i : nat) (o : cop T)                  (* a vector operation or a container algorithm on vs[i] *)
  | MvAssign (i j : nat)                        (* vs[i] = vs[j] *)
  | MvSwap (i j : nat)                          (* swap (vs[i], vs[j]); vs[i] = move (vs[j]) *)
  | MvCopyNew (i j : nat)                       (* vector<T> t (vs[j]); t.swap (vs[i]) *)
  | MvMoveNew (i j : nat)                       (* vector<T> t (move (vs[j])); t.swap (vs[i]) *)
  | MvInsert (i ip j a b : nat)                 (* vs[i].insert (vs[i].begin()+ip, vs[j].begin()+a, vs[j].begin()+b) *)
  | MvAssignRange (i j a b : nat)               (* vs[i].assign (vs[j].begin()+a, vs[j].begin()+b) *)
  | MvAppend (i j : nat)                        (* copy (vs[j], back_inserter (vs[i])) *)
  | MvCopyIf (i j : nat) (p : T -> bool)        (* copy_if (vs[j], back_inserter (vs[i]), p) *)
  | MvRemoveCopy (i j : nat) (x : T)            (* remove_copy (vs[j], back_inserter (vs[i]), x) *)
  | MvRemoveCopyIf (i j : nat) (p : T -> bool)  (* remove_copy_if (vs[j], back_inserter (vs[i]), p) *)
  | MvCopyTo (i at_ j : nat)                    (* copy (vs[j], vs[i].begin()+at) *)
  | MvUniqueTo (i at_ j : nat)                  (* unique_copy (vs[j], vs[i].begin()+at) *)
  | MvTransformTo (i at_ j : nat) (f : T -> T)  (* transform (vs[j], vs[i].begin()+at, f) *)
  | MvTransform2 (i at_ j k : nat) (f : T -> T -> T)   (* transform (vs[j], vs[k].begin(), vs[i].begin()+at, f) *)
  | MvFill (i : nat) (x : T)                    (* fill (vs[i], x) *)
  | MvFind (i : nat) (x : T)                    (* find (vs[i], x) - vs[i].begin() *)
  | MvFindIf (i : nat) (p : T -> bool)
  | MvCount (i : nat) (x : T)
  | MvCountIf (i : nat) (p : T -> bool)
  | MvLower (i : nat) (x : T)                   (* lower_bound (vs[i], x) - vs[i].begin() *)
  | MvUpper (i : nat) (x : T)
  | MvSearch (i : nat) (x : T)                  (* binary_search (vs[i], x) *)
  | MvContents (i : nat).                       (* the elements, from begin() to end() *)
  Inductive mout : Type := MoNothing | MoPos (n : nat) | MoBool (b : bool) | MoList (l : list T).

  (** The elements [l] written through the iterator begin() + at. *)
  Definition write_to (v : vec T) (at_ : nat) (l : list T) : outcome (vec T) :=
    ' (v, _) <- in_place v (fun a => a <- copy_from l a at_ ;; Ok (a, tt)) ;; Ok v.
  (** uvector.h:209-214 [vector (const vector&)]: the elements are copied to the
      space that append_hole returns in the new vector. *)
  Definition vec_copy (l : list T) : outcome (vec T) :=
    ' (v', _, _) <- append_hole e es vec_nil (length l) ;;
    cells <- construct (vcells v') 0 l ;;
    Ok (mkvec cells (length l) (vcap v')).
  (** [first, last) of a source vector. *)
  Definition source (v : vec T) (a b : nat) : outcome (list T) :=
    l <- contents v ;; if (a <=? b) && (b <=? length l) then Ok (slice l a b) else UB.
  Definition put (vs : list (vec T)) (i : nat) (m : outcome (vec T)) : outcome (list (vec T) * mout) :=
    v <- m ;; vs <- wr vs i v ;; Ok (vs, MoNothing).

  (** One statement.  The elements of another vector are read while the target
      is written; their blocks are different ([i <> j] where the target grows). *)
  Definition mv_step (vs : list (vec T)) (o : mop) : outcome (list (vec T) * mout) :=
    match o with
    | MvOn i o => v <- rd vs i ;; put vs i (c_step e es dflt eqb lt qs v o)
    | MvAssign i j =>                         (* uvector.h:249-254 [operator=] *)
        v <- rd vs i ;;
        if Nat.eqb i j then put vs i (assign_range_own e es dflt v 0 (vsize v))
        else w <- rd vs j ;; l <- contents w ;; put vs i (assign e es dflt v l)
    | MvSwap i j =>                           (* uvector.h:89, 112, memblock.h:35 [swap] *)
        v <- rd vs i ;; w <- rd vs j ;; vs <- wr vs i w ;; vs <- wr vs j v ;; Ok (vs, MoNothing)
    | MvCopyNew i j =>                        (* uvector.h:209-214 *)
        _ <- rd vs i ;; w <- rd vs j ;; l <- contents w ;; put vs i (vec_copy l)
    | MvMoveNew i j =>                        (* uvector.h:110, memblock.h:53 *)
        w <- rd vs j ;; vs <- wr vs j vec_nil ;; put vs i (Ok w)
    | MvInsert i ip j a b =>                  (* uvector.h:293-299 *)
        v <- rd vs i ;;
        if Nat.eqb i j then put vs i (insert_range_own e es v ip a b)
        else w <- rd vs j ;; l <- source w a b ;; put vs i (insert_list e es v ip l)
    | MvAssignRange i j a b =>                (* uvector.h:232-237 *)
        v <- rd vs i ;;
        if Nat.eqb i j then put vs i (assign_range_own e es dflt v a b)
        else w <- rd vs j ;; l <- source w a b ;; put vs i (assign e es dflt v l)
    | MvAppend i j =>                         (* uctralgo.h:16-20 *)
        if Nat.eqb i j then UB else
        v <- rd vs i ;; w <- rd vs j ;; l <- contents w ;; put vs i (copy_back_inserter e es v l)
    | MvCopyIf i j p =>                       (* uctralgo.h:27-31 *)
        if Nat.eqb i j then UB else
        v <- rd vs i ;; w <- rd vs j ;; l <- contents w ;; put vs i (copy_back_inserter e es v (copy_if p l []))
    | MvRemoveCopy i j x =>                   (* uctralgo.h:240-244 *)
        if Nat.eqb i j then UB else
        v <- rd vs i ;; w <- rd vs j ;; l <- contents w ;; put vs i (copy_back_inserter e es v (remove_copy eqb l x []))
    | MvRemoveCopyIf i j p =>                 (* uctralgo.h:254-258 *)
        if Nat.eqb i j then UB else
        v <- rd vs i ;; w <- rd vs j ;; l <- contents w ;; put vs i (copy_back_inserter e es v (remove_copy_if p l []))
    | MvCopyTo i at_ j =>                     (* uctralgo.h:16-20 *)
        if Nat.eqb i j then UB else
        v <- rd vs i ;; w <- rd vs j ;; l <- contents w ;; put vs i (write_to v at_ l)
    | MvUniqueTo i at_ j =>                   (* uctralgo.h:310-314 *)
        if Nat.eqb i j then UB else
        v <- rd vs i ;; w <- rd vs j ;; l <- contents w ;; put vs i (write_to v at_ (unique_copy eqb l []))
    | MvTransformTo i at_ j f =>              (* uctralgo.h:131-135 *)
        if Nat.eqb i j then UB else
        v <- rd vs i ;; w <- rd vs j ;; l <- contents w ;; put vs i (write_to v at_ (transform f l))
    | MvTransform2 i at_ j k f =>             (* uctralgo.h:144-148 *)
        if Nat.eqb i j || Nat.eqb i k then UB else
        v <- rd vs i ;; w <- rd vs j ;; x <- rd vs k ;; l1 <- contents w ;; l2 <- contents x ;;
        out <- transform2 f l1 l2 ;; put vs i (write_to v at_ out)
    | MvFill i x =>                           (* uctralgo.h:207-211 *)
        v <- rd vs i ;; put vs i (on_elements v (fun l => Ok (repeat x (length l))))
    | MvFind i x => v <- rd vs i ;; l <- contents v ;; Ok (vs, MoPos (find eqb l x))          (* uctralgo.h:55-64 *)
    | MvFindIf i p => v <- rd vs i ;; l <- contents v ;; Ok (vs, MoPos (find_if p l))         (* uctralgo.h:72-81 *)
    | MvCount i x => v <- rd vs i ;; l <- contents v ;; Ok (vs, MoPos (count eqb l x))        (* uctralgo.h:87-91 *)
    | MvCountIf i p => v <- rd vs i ;; l <- contents v ;; Ok (vs, MoPos (count_if p l))       (* uctralgo.h:99-103 *)
    | MvLower i x =>                          (* uctralgo.h:377-386 *)
        v <- rd vs i ;; l <- contents v ;; n <- lower_bound lt l 0 (length l) x ;; Ok (vs, MoPos n)
    | MvUpper i x =>                          (* uctralgo.h:392-401 *)
        v <- rd vs i ;; l <- contents v ;; n <- upper_bound lt l 0 (length l) x ;; Ok (vs, MoPos n)
    | MvSearch i x =>                         (* uctralgo.h:405-414 *)
        v <- rd vs i ;; l <- contents v ;; b <- binary_search lt l 0 (length l) x ;; Ok (vs, MoBool b)
    | MvContents i => v <- rd vs i ;; l <- contents v ;; Ok (vs, MoList l)
    end.
  Fixpoint mv_run (vs : list (vec T)) (ops : list mop) : outcome (list (vec T) * list mout) :=
    match ops with
    | [] => Ok (vs, [])
    | o :: t => ' (vs, x) <- mv_step vs o ;; ' (vs, r) <- mv_run vs t ;; Ok (vs, x :: r)
    end.
End MVec.
Arguments mop : clear implicits.
Arguments mout : clear implicits.
