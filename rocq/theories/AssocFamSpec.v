(** * AssocFamSpec: several sets or maps, as lists whose order means nothing.
    [k]-th element: the one with exactly [k] smaller ones. *)
From Coq Require Import ZArith.
From Verif Require Import Base Order AssocModel AssocFamModel.
Local Open Scope nat_scope.

Section Spec.
  Context {A K O R : Type}.
  Variable es : Z.
  Variable key : A -> K.
  Variable comp : K -> K -> bool.
  Variable spec : list A -> O -> list A * R.
  Variable cost : O -> nat.

  Definition rank (s : list A) (x : A) : nat := countp (fun y => comp (key y) (key x)) s.
  Definition kth (k : nat) (s : list A) : option A := find (fun x => Nat.eqb (rank s x) k) s.
  Definition without (k1 k2 : nat) (s : list A) : list A :=
    filter (fun x => negb ((k1 <=? rank s x) && (rank s x <? k2))) s.

  Definition get (ss : list (list A)) (i : nat) : list A := nth i ss [].
  Definition put (ss : list (list A)) (i : nat) (s : list A) : list (list A) := firstn i ss ++ s :: skipn (S i) ss.
  Definition f_spec (ss : list (list A)) (o : fop O) : list (list A) * fout A R :=
    match o with
    | FNew i => (put ss i [], FNone)
    | FCopy i j | FAssign i j => (put ss i (get ss j), FNone)
    | FMove i j => (put (put ss i (get ss j)) j [], FNone)
    | FMoveAssign i j | FSwap i j => (put (put ss i (get ss j)) j (get ss i), FNone)
    | FEraseAt i k => (put ss i (without k (k + 1) (get ss i)), FPos k)
    | FEraseRange i k1 k2 => (put ss i (without k1 k2 (get ss i)), FPos k1)
    | FElem i k => (ss, match kth k (get ss i) with Some x => FVal x | None => FNone end)
    | FDo i o => (put ss i (fst (spec (get ss i) o)), FRes (snd (spec (get ss i) o)))
    end.
  Fixpoint f_spec_run (ss : list (list A)) (ops : list (fop O)) : list (list A) * list (fout A R) :=
    match ops with
    | [] => (ss, [])
    | o :: t => let (ss', r) := f_spec ss o in let (ss'', rs) := f_spec_run ss' t in (ss'', r :: rs)
    end.

  (** The variables exist, the iterators are valid, the size stays below 2^31 bytes. *)
  Definition f_pre (ss : list (list A)) (o : fop O) : Prop :=
    match o with
    | FNew i => i < length ss
    | FCopy i j | FMove i j => i < length ss /\ j < length ss /\ i <> j
    | FAssign i j | FMoveAssign i j | FSwap i j => i < length ss /\ j < length ss
    | FEraseAt i k | FElem i k => i < length ss /\ k < length (get ss i)
    | FEraseRange i k1 k2 => i < length ss /\ k1 <= k2 <= length (get ss i)
    | FDo i o => i < length ss /\ (es * Z.of_nat (length (get ss i) + cost o) <= 2 ^ 31)%Z
    end.
  Fixpoint f_pres (ss : list (list A)) (ops : list (fop O)) : Prop :=
    match ops with [] => True | o :: t => f_pre ss o /\ f_pres (fst (f_spec ss o)) t end.
End Spec.
