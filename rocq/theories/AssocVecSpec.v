(** * AssocVecSpec: the inherited operations on a set seen as a list without
    order.  The last element is the one with all others below it. *)
From Coq Require Import ZArith.
From Verif Require Import Base Order AssocModel AssocFamSpec AssocVecModel.
Local Open Scope nat_scope.

Section Spec.
  Context {A K O R : Type}.
  Variable es : Z.
  Variable key : A -> K.
  Variable comp : K -> K -> bool.
  Variable spec : list A -> O -> list A * R.
  Variable cost : O -> nat.

  (** Greatest: not less than any element; least: no element is less. *)
  Definition greatest (s : list A) (x : A) : bool := forallb (fun y => negb (comp (key x) (key y))) s.
  Definition least (s : list A) (x : A) : bool := forallb (fun y => negb (comp (key y) (key x))) s.
  Definition i_spec (s : list A) (o : iop O) : list A * iout A R :=
    match o with
    | IDo o => (fst (spec s o), IRes (snd (spec s o)))
    | IPopBack => (filter (fun x => negb (greatest s x)) s, INone)
    | IReserve _ _ | IShrink => (s, INone)
    | IFront => (s, match find (least s) s with Some x => IVal x | None => INone end)
    | IBack => (s, match find (greatest s) s with Some x => IVal x | None => INone end)
    | IDeallocate => ([], INone)
    end.
  Definition i_pre (s : list A) (o : iop O) : Prop :=
    match o with
    | IDo o => (es * Z.of_nat (length s + cost o) <= 2 ^ 31)%Z
    | IPopBack | IFront | IBack => s <> []
    | IReserve n _ => (es * Z.of_nat n <= 2 ^ 31)%Z
    | IShrink | IDeallocate => True
    end.
  Fixpoint i_pres (s : list A) (ops : list (iop O)) : Prop :=
    match ops with [] => True | o :: t => i_pre s o /\ i_pres (fst (i_spec s o)) t end.
End Spec.

(** Operations that do not look an element up by ==. *)
Definition no_eq {T} (o : set_op T) : bool := match o with SErase _ | SFind _ => false | _ => true end.
