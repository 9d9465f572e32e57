(** * AssocFamModel: programs with several sets or maps.

    Sets and maps are vectors (AssocModel); here several of them live side by
    side and are copied, moved, swapped, erased from by iterator and given
    their own elements as arguments.  Iterators are indices.  [step] is the
    container's own operation, [set_step] or [map_step]. *)
From Verif Require Import Base UtilModel StoreModel VectorModel ArrayModel AssocModel.
From Coq Require Import ZArith.
Local Open Scope nat_scope.

Section Fam.
  Context {A O R : Type}.
  Variable e : env.
  Variable es : Z.
  Variable dflt : A.
  Variable step : vec A -> O -> outcome (vec A * R).

  Inductive fop : Type :=
  | FNew (i : nat)              (* a new empty container in place of variable i *)
  | FCopy (i j : nat)           (* a new copy of j in place of i *)
  | FMove (i j : nat)           (* a new container made from move (j) in place of i *)
  | FAssign (i j : nat)         (* i = j *)
  | FMoveAssign (i j : nat)     (* i = move (j) *)
  | FSwap (i j : nat)           (* i.swap (j) *)
  | FEraseAt (i k : nat)        (* i.erase (i.begin() + k) *)
  | FEraseRange (i k1 k2 : nat) (* i.erase (i.begin() + k1, i.begin() + k2) *)
  | FElem (i k : nat)           (* i.begin()[k] *)
  | FDo (i : nat) (o : O).
  Inductive fout : Type := FNone | FPos (k : nat) | FVal (x : A) | FRes (r : R).

  (** uvector.h:225-229 the destructor of what was in the variable. *)
  Definition f_renew (fs : list (vec A)) (i : nat) (v : vec A) : outcome (list (vec A)) :=
    old <- rd fs i ;; _ <- destroy_all old ;; wr fs i v.
  (** memblock.h, uvector.h:89 [swap]: the blocks change hands. *)
  Definition f_swap (fs : list (vec A)) (i j : nat) : outcome (list (vec A)) :=
    a <- rd fs i ;; b <- rd fs j ;; fs <- wr fs i b ;; wr fs j a.

  Definition f_step (fs : list (vec A)) (o : fop) : outcome (list (vec A) * fout) :=
    match o with
    | FNew i => fs <- f_renew fs i vec_nil ;; Ok (fs, FNone)              (* uset.h:37, umap.h:54 *)
    | FCopy i j =>                                                        (* uset.h:39, uvector.h:207-212 *)
        if Nat.eqb i j then UB else
        v <- rd fs j ;; l <- contents v ;; c <- vec_of e es l ;;
        fs <- f_renew fs i c ;; Ok (fs, FNone)
    | FMove i j =>                                                        (* uset.h:72, uvector.h:110, memblock.h:39 *)
        if Nat.eqb i j then UB else
        fs <- f_renew fs i vec_nil ;; fs <- f_swap fs i j ;; Ok (fs, FNone)
    | FAssign i j =>                                                      (* uset.h:41, uvector.h:233-238, 250-254 *)
        b <- rd fs j ;; a <- rd fs i ;;
        a <- resize e es dflt a (vsize b) ;; fs <- wr fs i a ;;
        b <- rd fs j ;; l <- contents b ;;
        cells <- assign_cells (vcells a) 0 l ;;
        fs <- wr fs i (mkvec cells (vsize a) (vcap a)) ;; Ok (fs, FNone)
    | FMoveAssign i j => fs <- f_swap fs i j ;; Ok (fs, FNone)            (* uset.h:74, uvector.h:112 *)
    | FSwap i j => fs <- f_swap fs i j ;; Ok (fs, FNone)                  (* uset.h:69, umap.h:89 *)
    | FEraseAt i k =>                                                     (* uset.h:66, umap.h:86 *)
        v <- rd fs i ;; v <- erase e es v k 1 ;; fs <- wr fs i v ;; Ok (fs, FPos k)
    | FEraseRange i k1 k2 =>                                              (* uset.h:67, umap.h:87 *)
        v <- rd fs i ;; if k2 <? k1 then UB else
        v <- erase e es v k1 (k2 - k1) ;; fs <- wr fs i v ;; Ok (fs, FPos k1)
    | FElem i k => v <- rd fs i ;; x <- vat v k ;; Ok (fs, FVal x)
    | FDo i o => v <- rd fs i ;; ' (v, r) <- step v o ;; fs <- wr fs i v ;; Ok (fs, FRes r)
    end.
End Fam.
Arguments fop : clear implicits.
Arguments fout : clear implicits.

(** ** Arguments that are the container's own elements. *)
Section Own.
  Context {T : Type}.
  Variable e : env.
  Variable es : Z.
  Variable comp : T -> T -> bool.
  Variable eqb : T -> T -> bool.
  (** uset.h:103-110 [insert (s.begin()[i])]: the reference is read while the
      vector is as it was, and by vector::insert after the hole was made. *)
  Definition set_insert_own (v : vec T) (i : nat) : outcome (vec T * nat * bool) :=
    x <- vat v i ;;
    ip <- s_lower comp v x ;;
    ins <- (if Nat.eqb ip (vsize v) then Ok true else y <- vat v ip ;; Ok (comp x y)) ;;
    if ins then v' <- insert_own e es v ip i ;; Ok (v', ip, true)
    else Ok (v, ip, false).
  (** uset.h:64 [insert (s.begin(), s.end())]: the loop over its own elements. *)
  Fixpoint set_insert_range_own (v : vec T) (i n : nat) : outcome (vec T) :=
    match n with
    | O => Ok v
    | S n' => ' (v', _, _) <- set_insert_own v i ;; set_insert_range_own v' (S i) n'
    end.
  (** uset.h:65 [erase (s.begin()[i])]: the reference is not read after find. *)
  Definition set_erase_own (v : vec T) (i : nat) : outcome (vec T) :=
    x <- vat v i ;; ip <- s_find comp eqb v x ;;
    if Nat.eqb ip (vsize v) then Ok v else erase e es v ip 1.
  (** umultiset.h:61 [insert (m.begin()[i])]. *)
  Definition mset_insert_own (v : vec T) (i : nat) : outcome (vec T * nat) :=
    x <- vat v i ;; ip <- s_upper comp v x ;; v' <- insert_own e es v ip i ;; Ok (v', ip).
  (** umultiset.h:66 [erase (m.begin()[i])]. *)
  Definition mset_erase_own (v : vec T) (i : nat) : outcome (vec T * nat) :=
    x <- vat v i ;; ' (a, b) <- s_equal_range comp v x ;;
    v' <- erase e es v a (b - a) ;; Ok (v', b - a).
End Own.

Section MapOwn.
  Context {K V : Type}.
  Variable e : env.
  Variable es : Z.
  Variable comp : K -> K -> bool.
  (** umap.h:137-144 [insert (m.begin()[i])]. *)
  Definition map_insert_own (v : vec (K * V)) (i : nat) : outcome (vec (K * V) * nat * bool) :=
    p <- vat v i ;;
    ip <- m_lower comp v (fst p) ;;
    ins <- (if Nat.eqb ip (vsize v) then Ok true else q <- vat v ip ;; Ok (comp (fst p) (fst q))) ;;
    if ins then v' <- insert_own e es v ip i ;; Ok (v', ip, true)
    else Ok (v, ip, false).
  (** umap.h:161-166 [erase (m.begin()[i].first)]. *)
  Definition map_erase_own (v : vec (K * V)) (i : nat) : outcome (vec (K * V)) :=
    p <- vat v i ;; ip <- m_find comp v (fst p) ;;
    if Nat.eqb ip (vsize v) then Ok v else erase e es v ip 1.
  (** umultimap.h:64 [insert (m.begin()[i])]. *)
  Definition mmap_insert_own (v : vec (K * V)) (i : nat) : outcome (vec (K * V) * nat) :=
    p <- vat v i ;; ip <- m_upper comp v (fst p) ;; v' <- insert_own e es v ip i ;; Ok (v', ip).
End MapOwn.
