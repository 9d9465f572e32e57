(** * CtrSpec: what the container algorithms should do to a sequence. *)
From Verif Require Import Base Order RangeSpec VectorModel VectorSpec CtrModel.
From Coq Require Import ZArith.

Section Spec.
  Context {T : Type}.
  Variable es : Z.
  Variable dflt : T.
  Variable eqb lt : T -> T -> bool.

  (** What the caller must guarantee. *)
  Definition cpre (l : list T) (o : cop T) : Prop :=
    match o with
    | CVec o => op_pre es dflt l o
    | CRemoveAt rs => StronglySorted le rs
    | CRotate off => (Z.abs off < Z.of_nat (length l))%Z
    | _ => True
    end.
  (** [l'] is a right result for [l]. *)
  Definition cspec (l : list T) (o : cop T) (l' : list T) : Prop :=
    match o with
    | CVec o => l' = seq_step dflt l o
    | CRemove x => l' = filter (fun y => negb (eqb y x)) l
    | CRemoveIf p => l' = filter (fun y => negb (p y)) l
    | CRemoveAt rs =>
        l' = map snd (filter (fun iy => negb (existsb (Nat.eqb (fst iy)) rs)) (combine (seq 0 (length l)) l))
    | CUnique => l' = run_heads eqb l
    | CReverse => l' = rev l
    | CRotate off => exists a b, l = a ++ b /\ l' = b ++ a /\
        (if (0 <? off)%Z then Z.of_nat (length b) = off else Z.of_nat (length a) = - off)%Z
    | CSort => Ascending lt l' /\ Permutation l' l
    | CStableSort => Ascending lt l' /\ Permutation l' l /\
        forall v, filter (equiv lt v) l' = filter (equiv lt v) l
    | CShuffle _ => Permutation l' l
    | CReplace o n => l' = map (fun y => if eqb y o then n else y) l
    | CReplaceIf p n => l' = map (fun y => if p y then n else y) l
    | CTransform op => l' = map op l
    | CFill x => l' = repeat x (length l)
    | CGenerate g => l' = map g (seq 0 (length l))
    end.
  Fixpoint cpres (l : list T) (ops : list (cop T)) : Prop :=
    match ops with
    | [] => True
    | o :: t => cpre l o /\ forall l', cspec l o l' -> cpres l' t
    end.
  Inductive cspecs : list T -> list (cop T) -> list T -> Prop :=
  | cs_nil l : cspecs l [] l
  | cs_cons l o l1 t l2 : cspec l o l1 -> cspecs l1 t l2 -> cspecs l (o :: t) l2.
End Spec.
