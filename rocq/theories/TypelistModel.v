(** * TypelistModel: the compile-time algorithms on lists of types.

    A template instantiation is a computation on types; [None] is an
    instantiation that does not compile (an incomplete template or a missing
    member). *)
From Coq Require Import List Arith Bool ZArith.
Import ListNotations.

(** Types, as far as the templates look at them: NullType (typet.h:15),
    Typelist<T,U> (typelist.h:17-21), and every other type, by a number. *)
Inductive ty := NullType | Typelist (head tail : ty) | Other (n : nat).
Definition ty_dec : forall a b : ty, {a = b} + {a <> b}.
Proof. decide equality. apply Nat.eq_dec. Defined.
(** typet.h:31-34 [IsSameType]; also what the repeated parameter of a partial
    specialisation, as in IndexOf<Typelist<T,Tail>,T>, tests. *)
Definition same (a b : ty) : bool := if ty_dec a b then true else false.
(** typet.h:24-28 [Select]. *)
Definition Select (flag : bool) (t u : ty) : ty := if flag then t else u.

(** typelist.h:37-50 [Seq]: nine parameters that default to NullType, and
    specialisations for one to eight; the most specialised that matches is the
    one that leaves most parameters to the default. *)
Fixpoint last_given (l : list ty) : nat :=
  match l with
  | [] => 0
  | x :: t => match last_given t with 0 => if same x NullType then 0 else 1 | S n => S (S n) end
  end.
Fixpoint build (l : list ty) : ty := match l with [] => NullType | x :: t => Typelist x (build t) end.
Definition Seq (args : list ty) : option ty :=
  if Nat.ltb 9 (length args) then None
  else Some (build (firstn (Nat.max 1 (last_given args)) (args ++ repeat NullType 9))).

(** typelist.h:63-66 [Length]. *)
Fixpoint Length (l : ty) : option nat :=
  match l with NullType => Some 0 | Typelist _ u => option_map S (Length u) | Other _ => None end.
(** typelist.h:69-77 [TypeAt]. *)
Fixpoint TypeAt (l : ty) (index : nat) : option ty :=
  match l with
  | Typelist h t => match index with 0 => Some h | S i => TypeAt t i end
  | _ => None
  end.
(** typelist.h:80-91 [TypeAtNonStrict]. *)
Fixpoint TypeAtNonStrict (l : ty) (index : nat) (dflt : ty) : ty :=
  match l with
  | Typelist h t => match index with 0 => h | S i => TypeAtNonStrict t i dflt end
  | _ => dflt
  end.
(** typelist.h:94-105 [IndexOf]. *)
Fixpoint IndexOf (l x : ty) : option Z :=
  match l with
  | NullType => Some (-1)%Z
  | Typelist h t =>
      if same h x then Some 0%Z
      else match IndexOf t x with
           | Some i => Some (if Z.eqb i (-1) then -1 else 1 + i)%Z
           | None => None
           end
  | Other _ => None
  end.
(** typelist.h:108-120 [Append]. *)
Fixpoint Append (l x : ty) : option ty :=
  match l with
  | NullType => match x with NullType => Some NullType | Typelist h t => Some (Typelist h t) | Other _ => Some (Typelist x NullType) end
  | Typelist h t => option_map (Typelist h) (Append t x)
  | Other _ => None
  end.
(** typelist.h:123-131 [Erase]. *)
Fixpoint Erase (l x : ty) : option ty :=
  match l with
  | NullType => Some NullType
  | Typelist h t => if same h x then Some t else option_map (Typelist h) (Erase t x)
  | Other _ => None
  end.
(** typelist.h:134-144 [EraseAll]. *)
Fixpoint EraseAll (l x : ty) : option ty :=
  match l with
  | NullType => Some NullType
  | Typelist h t => if same h x then EraseAll t x else option_map (Typelist h) (EraseAll t x)
  | Other _ => None
  end.
(** typelist.h:147-156 [NoDuplicates]. *)
Fixpoint NoDuplicates (l : ty) : option ty :=
  match l with
  | NullType => Some NullType
  | Typelist h t =>
      match NoDuplicates t with
      | Some l1 => option_map (Typelist h) (Erase l1 h)
      | None => None
      end
  | Other _ => None
  end.
(** typelist.h:159-169 [Replace]. *)
Fixpoint Replace (l x y : ty) : option ty :=
  match l with
  | NullType => Some NullType
  | Typelist h t => if same h x then Some (Typelist y t) else option_map (Typelist h) (Replace t x y)
  | Other _ => None
  end.
(** typelist.h:172-182 [ReplaceAll]. *)
Fixpoint ReplaceAll (l x y : ty) : option ty :=
  match l with
  | NullType => Some NullType
  | Typelist h t => option_map (Typelist (if same h x then y else h)) (ReplaceAll t x y)
  | Other _ => None
  end.
(** typelist.h:185-190 [Reverse]. *)
Fixpoint Reverse (l : ty) : option ty :=
  match l with
  | NullType => Some NullType
  | Typelist h t => match Reverse t with Some r => Append r h | None => None end
  | Other _ => None
  end.

Section Classes.
  (** typet.h:60-65 [SuperSubclass<T,U>::value]: U is T or is derived from it;
      which classes are derived from which is the program's business. *)
  Variable super : ty -> ty -> bool.
  (** typelist.h:193-201 [MostDerived]. *)
  Fixpoint MostDerived (l x : ty) : option ty :=
    match l with
    | NullType => Some x
    | Typelist h t => match MostDerived t x with Some c => Some (Select (super c h) h c) | None => None end
    | Other _ => None
    end.
  (** typelist.h:204-214 [DerivedToFront].  The recursion is on Temp, which is
      as long as Tail; [n] counts down the length. *)
  Fixpoint derived_to_front (n : nat) (l : ty) : option ty :=
    match n, l with
    | _, NullType => Some NullType
    | S m, Typelist h t =>
        match MostDerived t h with
        | Some d =>
            match Replace t d h with
            | Some temp => option_map (Typelist d) (derived_to_front m temp)
            | None => None
            end
        | None => None
        end
    | _, _ => None
    end.
  Definition DerivedToFront (l : ty) : option ty :=
    match Length l with Some n => derived_to_front n l | None => None end.
End Classes.
