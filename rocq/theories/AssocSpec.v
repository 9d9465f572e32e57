(** * AssocSpec: sets, bags, finite maps and multimaps as plain lists whose
    order carries no meaning (except, for the multimap, the order in which the
    pairs of one key were inserted). *)
From Verif Require Import Base Order AssocModel.
Local Open Scope nat_scope.

Fixpoint spec_run {S O R} (step : S -> O -> S * R) (s : S) (ops : list O) : S * list R :=
  match ops with
  | [] => (s, [])
  | o :: t => let (s', r) := step s o in let (s'', rs) := spec_run step s' t in (s'', r :: rs)
  end.

(** [==] holds between equivalent keys, those of which neither is less.  For a
    strict total order and its equality this is [==] itself. *)
Definition EqvOf {K : Type} (comp eqb : K -> K -> bool) : Prop := forall x y, eqb x y = equiv comp x y.

Section SetSpec.
  Context {T : Type}.
  Variable comp : T -> T -> bool.
  Variable eqb : T -> T -> bool.

  Definition mem (x : T) (s : list T) : bool := existsb (eqb x) s.
  Definition add (s : list T) (x : T) : list T := if mem x s then s else x :: s.
  Definition remove (s : list T) (x : T) : list T := filter (fun y => negb (eqb y x)) s.
  (** How many elements are less / not greater than x: where x is found. *)
  Definition below (x : T) (s : list T) : nat := countp (fun y => comp y x) s.
  Definition upto (x : T) (s : list T) : nat := countp (fun y => negb (comp x y)) s.

  Definition set_spec (s : list T) (o : set_op T) : list T * out :=
    match o with
    | SInsert x => (add s x, RInsert (below x s) (negb (mem x s)))
    | SErase x => (remove s x, RNone)
    | SClear => ([], RNone)
    | SInsertAll xs => (fold_left add xs s, RNone)
    | SAssign xs => (fold_left add xs [], RNone)
    | SFind x => (s, RFind (if mem x s then Some (below x s) else None))
    | SCount x => (s, RCount (if mem x s then 1 else 0))
    | SLower x => (s, RPos (below x s))
    | SUpper x => (s, RPos (upto x s))
    end.

  (** Multiset: the elements in the order of insertion. *)
  Definition bag_spec (s : list T) (o : set_op T) : list T * out :=
    match o with
    | SInsert x => (s ++ [x], RPos (upto x s))
    | SErase x => (remove s x, RCount (countp (fun y => eqb y x) s))
    | SClear => ([], RNone)
    | SInsertAll xs => (s ++ xs, RNone)
    | SAssign xs => (xs, RNone)
    | SFind x => (s, RFind (if mem x s then Some (below x s) else None))
    | SCount x => (s, RCount (countp (fun y => eqb y x) s))
    | SLower x => (s, RPos (below x s))
    | SUpper x => (s, RPos (upto x s))
    end.

  (** Number of values the history inserts. *)
  Definition set_inserts (o : set_op T) : nat :=
    match o with
    | SInsert _ => 1
    | SInsertAll xs | SAssign xs => length xs
    | _ => 0
    end.
End SetSpec.

Section MapSpec.
  Context {K V : Type}.
  Variable comp : K -> K -> bool.
  Variable keqb : K -> K -> bool.
  Variable dflt : V.

  Definition lookup (k : K) (s : list (K * V)) : option V :=
    option_map snd (find (fun p => keqb (fst p) k) s).
  (** The key under which [k] is stored: an equivalent one that is there, or [k]. *)
  Definition stored (k : K) (s : list (K * V)) : K :=
    match find (fun p => keqb (fst p) k) s with Some p => fst p | None => k end.
  Definition unbind (s : list (K * V)) (k : K) : list (K * V) :=
    filter (fun p => negb (keqb (fst p) k)) s.
  Definition bind_new (s : list (K * V)) (p : K * V) : list (K * V) :=
    match lookup (fst p) s with None => p :: s | Some _ => s end.
  Definition kbelow (k : K) (s : list (K * V)) : nat := countp (fun p => comp (fst p) k) s.
  Definition kupto (k : K) (s : list (K * V)) : nat := countp (fun p => negb (comp k (fst p))) s.
  Definition kcount (k : K) (s : list (K * V)) : nat := countp (fun p => keqb (fst p) k) s.

  Definition map_spec (s : list (K * V)) (o : map_op K V) : list (K * V) * mout V :=
    match o with
    | MInsert k x => (bind_new s (k, x),
                      MInserted (kbelow k s) (match lookup k s with None => true | Some _ => false end))
    | MSet k x => ((stored k s, x) :: unbind s k, MNone)
    | MGet k => (bind_new s (k, dflt), MVal (match lookup k s with Some x => x | None => dflt end))
    | MErase k => (unbind s k, MNone)
    | MClear => ([], MNone)
    | MInsertAll ps => (fold_left bind_new ps s, MNone)
    | MAssign ps => (fold_left bind_new ps [], MNone)
    | MFind k => (s, MFound (lookup k s))
    | MCount k => (s, MNum (match lookup k s with Some _ => 1 | None => 0 end))
    | MLower k => (s, MPos (kbelow k s))
    | MUpper k => (s, MPos (kupto k s))
    end.
  Definition map_inserts (o : map_op K V) : nat :=
    match o with
    | MInsert _ _ | MSet _ _ | MGet _ => 1
    | MInsertAll ps | MAssign ps => length ps
    | _ => 0
    end.

  (** Multimap: the pairs in the order of insertion. *)
  Definition values (k : K) (s : list (K * V)) : list V :=
    map snd (filter (fun p => keqb (fst p) k) s).
  Definition mmap_spec (s : list (K * V)) (o : mmap_op K V) : list (K * V) * mmout V :=
    match o with
    | MMInsert k x => (s ++ [(k, x)], MMPos (kupto k s))
    | MMErase k => (unbind s k, MMNone)
    | MMClear => ([], MMNone)
    | MMInsertAll ps => (s ++ ps, MMNone)
    | MMAssign ps => (ps, MMNone)
    | MMFind k => (s, MMFound (lookup k s))
    | MMCount k => (s, MMNum (kcount k s))
    | MMRange k => (s, MMVals (values k s))
    end.
  Definition mmap_inserts (o : mmap_op K V) : nat :=
    match o with
    | MMInsert _ _ => 1
    | MMInsertAll ps | MMAssign ps => length ps
    | _ => 0
    end.
End MapSpec.

Definition total {O} (f : O -> nat) (ops : list O) : nat := list_sum (map f ops).
