(** * AssocModel: uset.h, umultiset.h, umap.h, umultimap.h.

    All four are vectors (VectorModel) kept in order.  [contents v] is the
    sequence begin()..end() dereferences to; iterators are indices, end() is
    the size.  [comp] is Comp()(a,b), [eqb] is operator== of the elements. *)
From Verif Require Import Base UtilModel StoreModel VectorModel ArrayModel.
From Coq Require Import ZArith.
Local Open Scope nat_scope.

(** What an operation returns to the caller. *)
Inductive out : Type :=
| RNone
| RInsert (pos : nat) (inserted : bool)
| RPos (pos : nat)                 (* an iterator, as an index *)
| RFind (pos : option nat)         (* [None]: end() *)
| RCount (n : nat)
| RRange (lo hi : nat).

Section Set_.
  Context {T : Type}.
  Variable e : env.
  Variable es : Z.
  Variable comp : T -> T -> bool.
  Variable eqb : T -> T -> bool.

  (** uset.h:51, umultiset.h:53 [lower_bound]. *)
  Definition s_lower (v : vec T) (x : T) : outcome nat :=
    l <- contents v ;; lower_bound comp l 0 (length l) x.
  (** uset.h:53, umultiset.h:55 [upper_bound]. *)
  Definition s_upper (v : vec T) (x : T) : outcome nat :=
    l <- contents v ;; upper_bound comp l 0 (length l) x.
  (** uset.h:55, umultiset.h:57 [equal_range]. *)
  Definition s_equal_range (v : vec T) (x : T) : outcome (nat * nat) :=
    l <- contents v ;; equal_range comp comp l 0 (length l) x.
  (** uset.h:57, umultiset.h:59 [count]. *)
  Definition s_count (v : vec T) (x : T) : outcome nat :=
    ' (a, b) <- s_equal_range v x ;; Ok (b - a).
  (** uset.h:49, umultiset.h:51 [find]; end() is [vsize v]. *)
  Definition s_find (v : vec T) (x : T) : outcome nat :=
    i <- s_lower v x ;;
    if Nat.eqb i (vsize v) then Ok (vsize v)
    else y <- vat v i ;; if eqb y x then Ok i else Ok (vsize v).
  Definition found (v : vec T) (i : nat) : option nat := if Nat.eqb i (vsize v) then None else Some i.

  (** uset.h:90-97, 103-110 [insert]. *)
  Definition set_insert (v : vec T) (x : T) : outcome (vec T * nat * bool) :=
    ip <- s_lower v x ;;
    ins <- (if Nat.eqb ip (vsize v) then Ok true else y <- vat v ip ;; Ok (comp x y)) ;;
    if ins then v' <- insert1 e es v ip x ;; Ok (v', ip, true)
    else Ok (v, ip, false).
  (** uset.h:65 [erase (v)]. *)
  Definition set_erase (v : vec T) (x : T) : outcome (vec T) :=
    ip <- s_find v x ;;
    if Nat.eqb ip (vsize v) then Ok v else erase e es v ip 1.
  (** uset.h:64 [insert (i1, i2)], also the range and list constructors. *)
  Fixpoint set_insert_all (v : vec T) (xs : list T) : outcome (vec T) :=
    match xs with
    | [] => Ok v
    | x :: t => ' (v', _, _) <- set_insert v x ;; set_insert_all v' t
    end.

  Inductive set_op : Type :=
  | SInsert (x : T) | SErase (x : T) | SClear
  | SInsertAll (xs : list T) | SAssign (xs : list T)
  | SFind (x : T) | SCount (x : T) | SLower (x : T) | SUpper (x : T).

  Definition set_step (v : vec T) (o : set_op) : outcome (vec T * out) :=
    match o with
    | SInsert x => ' (v', p, b) <- set_insert v x ;; Ok (v', RInsert p b)
    | SErase x => v' <- set_erase v x ;; Ok (v', RNone)
    | SClear => v' <- clear v ;; Ok (v', RNone)                      (* uset.h:68 *)
    | SInsertAll xs => v' <- set_insert_all v xs ;; Ok (v', RNone)
    | SAssign xs => v' <- clear v ;; v'' <- set_insert_all v' xs ;; Ok (v'', RNone)  (* uset.h:60 *)
    | SFind x => i <- s_find v x ;; Ok (v, RFind (found v i))
    | SCount x => n <- s_count v x ;; Ok (v, RCount n)
    | SLower x => i <- s_lower v x ;; Ok (v, RPos i)
    | SUpper x => i <- s_upper v x ;; Ok (v, RPos i)
    end.

  (** umultiset.h:61, 74 [insert]. *)
  Definition mset_insert (v : vec T) (x : T) : outcome (vec T * nat) :=
    ip <- s_upper v x ;; v' <- insert1 e es v ip x ;; Ok (v', ip).
  (** umultiset.h:66 [erase (v)]: returns distance(epr.first, epr.second). *)
  Definition mset_erase (v : vec T) (x : T) : outcome (vec T * nat) :=
    ' (a, b) <- s_equal_range v x ;; v' <- erase e es v a (b - a) ;; Ok (v', b - a).
  (** umultiset.h:63 [insert (i1, i2)]. *)
  Fixpoint mset_insert_all (v : vec T) (xs : list T) : outcome (vec T) :=
    match xs with
    | [] => Ok v
    | x :: t => ' (v', _) <- mset_insert v x ;; mset_insert_all v' t
    end.
  Definition mset_step (v : vec T) (o : set_op) : outcome (vec T * out) :=
    match o with
    | SInsert x => ' (v', p) <- mset_insert v x ;; Ok (v', RPos p)
    | SErase x => ' (v', n) <- mset_erase v x ;; Ok (v', RCount n)
    | SClear => v' <- clear v ;; Ok (v', RNone)                      (* umultiset.h:67 *)
    | SInsertAll xs => v' <- mset_insert_all v xs ;; Ok (v', RNone)
    | SAssign xs => v' <- clear v ;; v'' <- mset_insert_all v' xs ;; Ok (v'', RNone)  (* umultiset.h:50 *)
    | SFind x => i <- s_find v x ;; Ok (v, RFind (found v i))
    | SCount x => n <- s_count v x ;; Ok (v, RCount n)
    | SLower x => i <- s_lower v x ;; Ok (v, RPos i)
    | SUpper x => i <- s_upper v x ;; Ok (v, RPos i)
    end.

End Set_.
Arguments set_op : clear implicits.

Section Map_.
  Context {K V : Type}.
  Variable e : env.
  Variable es : Z.
  Variable comp : K -> K -> bool.
  Variable dflt : V.                 (* V() *)

  (** umap.h:17-20 [pair_compare_first_key]. *)
  Definition vk_lt (p : K * V) (k : K) : bool := comp (fst p) k.
  Definition kv_lt (k : K) (p : K * V) : bool := comp k (fst p).
  (** umap.h:75-81, umultimap.h:55-61. *)
  Definition m_lower (v : vec (K * V)) (k : K) : outcome nat :=
    l <- contents v ;; lower_bound vk_lt l 0 (length l) k.
  Definition m_upper (v : vec (K * V)) (k : K) : outcome nat :=
    l <- contents v ;; upper_bound kv_lt l 0 (length l) k.
  Definition m_equal_range (v : vec (K * V)) (k : K) : outcome (nat * nat) :=
    l <- contents v ;; equal_range vk_lt kv_lt l 0 (length l) k.
  Definition m_count (v : vec (K * V)) (k : K) : outcome nat :=
    ' (a, b) <- m_equal_range v k ;; Ok (b - a).
  (** umap.h:109-113, umultimap.h:90-94 [find]. *)
  Definition m_find (v : vec (K * V)) (k : K) : outcome nat :=
    i <- m_lower v k ;;
    if i <? vsize v then
      p <- vat v i ;; if comp k (fst p) then Ok (vsize v) else Ok i
    else Ok i.
  (** umap.h:137-144, 149-156 [insert]. *)
  Definition map_insert (v : vec (K * V)) (p : K * V) : outcome (vec (K * V) * nat * bool) :=
    ip <- m_lower v (fst p) ;;
    ins <- (if Nat.eqb ip (vsize v) then Ok true else q <- vat v ip ;; Ok (comp (fst p) (fst q))) ;;
    if ins then v' <- insert1 e es v ip p ;; Ok (v', ip, true)
    else Ok (v, ip, false).
  (** umap.h:127-133 [operator[]]: the index of the pair whose second it
      returns. *)
  Definition map_subscript (v : vec (K * V)) (k : K) : outcome (vec (K * V) * nat) :=
    ip <- m_lower v k ;;
    ins <- (if Nat.eqb ip (vsize v) then Ok true else q <- vat v ip ;; Ok (comp k (fst q))) ;;
    if ins then v' <- insert1 e es v ip (k, dflt) ;; Ok (v', ip)
    else Ok (v, ip).
  (** [m[k]] read, and [m[k] = x]: assignment through the reference. *)
  Definition map_get (v : vec (K * V)) (k : K) : outcome (vec (K * V) * V) :=
    ' (v', i) <- map_subscript v k ;; p <- vat v' i ;; Ok (v', snd p).
  Definition map_set (v : vec (K * V)) (k : K) (x : V) : outcome (vec (K * V)) :=
    ' (v', i) <- map_subscript v k ;; p <- vat v' i ;;
    cells <- assign_cells (vcells v') i [(fst p, x)] ;;
    Ok (mkvec cells (vsize v') (vcap v')).
  (** umap.h:58-60 [at] (release build: the assertion is not compiled). *)
  Definition map_at (v : vec (K * V)) (k : K) : outcome V :=
    i <- m_find v k ;; p <- vat v i ;; Ok (snd p).
  (** umap.h:161-166 [erase (k)]. *)
  Definition map_erase (v : vec (K * V)) (k : K) : outcome (vec (K * V)) :=
    ip <- m_find v k ;;
    if Nat.eqb ip (vsize v) then Ok v else erase e es v ip 1.
  (** umap.h:84 [insert (i1, i2)]. *)
  Fixpoint map_insert_all (v : vec (K * V)) (ps : list (K * V)) : outcome (vec (K * V)) :=
    match ps with
    | [] => Ok v
    | p :: t => ' (v', _, _) <- map_insert v p ;; map_insert_all v' t
    end.

  Inductive map_op : Type :=
  | MInsert (k : K) (x : V) | MSet (k : K) (x : V) | MGet (k : K) | MErase (k : K) | MClear
  | MInsertAll (ps : list (K * V)) | MAssign (ps : list (K * V))
  | MFind (k : K) | MCount (k : K) | MLower (k : K) | MUpper (k : K).
  (** What a map operation returns: [MVal] is the value read through [m[k]] or
      at the iterator [find] returned. *)
  Inductive mout : Type :=
  | MNone | MInserted (pos : nat) (b : bool) | MPos (pos : nat) | MVal (x : V) | MFound (x : option V) | MNum (n : nat).

  (** [find] followed by reading [->second] unless it is end(). *)
  Definition map_lookup (v : vec (K * V)) (k : K) : outcome (option V) :=
    i <- m_find v k ;;
    if Nat.eqb i (vsize v) then Ok None else p <- vat v i ;; Ok (Some (snd p)).

  Definition map_step (v : vec (K * V)) (o : map_op) : outcome (vec (K * V) * mout) :=
    match o with
    | MInsert k x => ' (v', p, b) <- map_insert v (k, x) ;; Ok (v', MInserted p b)
    | MSet k x => v' <- map_set v k x ;; Ok (v', MNone)
    | MGet k => ' (v', x) <- map_get v k ;; Ok (v', MVal x)
    | MErase k => v' <- map_erase v k ;; Ok (v', MNone)
    | MClear => v' <- clear v ;; Ok (v', MNone)                      (* umap.h:88 *)
    | MInsertAll ps => v' <- map_insert_all v ps ;; Ok (v', MNone)
    | MAssign ps => v' <- clear v ;; v'' <- map_insert_all v' ps ;; Ok (v'', MNone)  (* umap.h:69 *)
    | MFind k => x <- map_lookup v k ;; Ok (v, MFound x)
    | MCount k => n <- m_count v k ;; Ok (v, MNum n)
    | MLower k => i <- m_lower v k ;; Ok (v, MPos i)
    | MUpper k => i <- m_upper v k ;; Ok (v, MPos i)
    end.

  (** umultimap.h:64, 76 [insert]. *)
  Definition mmap_insert (v : vec (K * V)) (p : K * V) : outcome (vec (K * V) * nat) :=
    ip <- m_upper v (fst p) ;; v' <- insert1 e es v ip p ;; Ok (v', ip).
  (** umultimap.h:67 [erase (k)]. *)
  Definition mmap_erase (v : vec (K * V)) (k : K) : outcome (vec (K * V)) :=
    a <- m_lower v k ;; b <- m_upper v k ;; erase e es v a (b - a).
  (** umultimap.h:65 [insert (i1, i2)]. *)
  Fixpoint mmap_insert_all (v : vec (K * V)) (ps : list (K * V)) : outcome (vec (K * V)) :=
    match ps with
    | [] => Ok v
    | p :: t => ' (v', _) <- mmap_insert v p ;; mmap_insert_all v' t
    end.
  (** The values in [equal_range (k)], in order. *)
  Definition mmap_values (v : vec (K * V)) (k : K) : outcome (list V) :=
    ' (a, b) <- m_equal_range v k ;;
    l <- contents v ;; Ok (map snd (slice l a b)).

  Inductive mmap_op : Type :=
  | MMInsert (k : K) (x : V) | MMErase (k : K) | MMClear
  | MMInsertAll (ps : list (K * V)) | MMAssign (ps : list (K * V))
  | MMFind (k : K) | MMCount (k : K) | MMRange (k : K).
  Inductive mmout : Type :=
  | MMNone | MMPos (pos : nat) | MMFound (x : option V) | MMNum (n : nat) | MMVals (l : list V).

  Definition mmap_step (v : vec (K * V)) (o : mmap_op) : outcome (vec (K * V) * mmout) :=
    match o with
    | MMInsert k x => ' (v', p) <- mmap_insert v (k, x) ;; Ok (v', MMPos p)
    | MMErase k => v' <- mmap_erase v k ;; Ok (v', MMNone)
    | MMClear => v' <- clear v ;; Ok (v', MMNone)                     (* umultimap.h:66 *)
    | MMInsertAll ps => v' <- mmap_insert_all v ps ;; Ok (v', MMNone)
    | MMAssign ps => v' <- clear v ;; v'' <- mmap_insert_all v' ps ;; Ok (v'', MMNone)  (* umultimap.h:62 *)
    | MMFind k => x <- map_lookup v k ;; Ok (v, MMFound x)
    | MMCount k => n <- m_count v k ;; Ok (v, MMNum n)
    | MMRange k => l <- mmap_values v k ;; Ok (v, MMVals l)
    end.
End Map_.
Arguments map_op : clear implicits.
Arguments mmap_op : clear implicits.
Arguments mout : clear implicits.
Arguments mmout : clear implicits.

(** Running a history, collecting what each call returns. *)
Fixpoint run_ops {S O R} (step : S -> O -> outcome (S * R)) (s : S) (ops : list O) : outcome (S * list R) :=
  match ops with
  | [] => Ok (s, [])
  | o :: t => ' (s', r) <- step s o ;; ' (s'', rs) <- run_ops step s' t ;; Ok (s'', r :: rs)
  end.
