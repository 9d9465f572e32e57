(** * MVecSpec: what programs with several vectors should do: the vectors are
    sequences, each its own. *)
From Coq Require Import ZArith.
From Verif Require Import Base Order RangeSpec VectorModel VectorSpec CtrModel CtrSpec MVecModel.
Local Open Scope nat_scope.

Section Spec.
  Context {T : Type}.
  Variable es : Z.
  Variable dflt : T.
  Variable eqb lt : T -> T -> bool.

  Definition replaced (ls : list (list T)) (i : nat) (l : list T) : list (list T) :=
    firstn i ls ++ l :: skipn (S i) ls.
  (** [n] elements of [l] from [a] on, overwritten with [x]. *)
  Definition overwritten (l : list T) (a : nat) (x : list T) : list T := firstn a l ++ x ++ skipn (a + length x) l.

  (** What the caller must guarantee: existing vectors, different source and
      target where the target is changed element by element, positions within
      the vectors, sorted vectors for the binary searches, and room. *)
  Definition room (n : nat) : Prop := (es * Z.of_nat n <= 2 ^ 31)%Z.
  Definition mv_pre (ls : list (list T)) (o : mop T) : Prop :=
    let n := length ls in let at_ i := nth i ls [] in
    match o with
    | MvOn i o => i < n /\ cpre es dflt (at_ i) o
    | MvAssign i j | MvSwap i j | MvCopyNew i j | MvMoveNew i j => i < n /\ j < n
    | MvInsert i ip j a b => i < n /\ j < n /\ i <> j /\ ip <= length (at_ i) /\ a <= b <= length (at_ j) /\
                             room (length (at_ i) + (b - a))
    | MvAssignRange i j a b => i < n /\ j < n /\ i <> j /\ a <= b <= length (at_ j)
    | MvAppend i j => i < n /\ j < n /\ i <> j /\ room (length (at_ i) + length (at_ j))
    | MvCopyIf i j _ | MvRemoveCopy i j _ | MvRemoveCopyIf i j _ =>
        i < n /\ j < n /\ i <> j /\ room (length (at_ i) + length (at_ j))
    | MvCopyTo i a j | MvTransformTo i a j _ => i < n /\ j < n /\ i <> j /\ a + length (at_ j) <= length (at_ i)
    | MvUniqueTo i a j => i < n /\ j < n /\ i <> j /\ a + length (at_ j) <= length (at_ i)
    | MvTransform2 i a j k _ => i < n /\ j < n /\ k < n /\ i <> j /\ i <> k /\
                                a + length (at_ j) <= length (at_ i) /\ length (at_ j) <= length (at_ k)
    | MvFill i _ | MvFind i _ | MvFindIf i _ | MvCount i _ | MvCountIf i _ | MvContents i => i < n
    | MvLower i _ | MvUpper i _ | MvSearch i _ => i < n /\ Ascending lt (at_ i)
    end.

  (** [ls'] and [out] are a right outcome. *)
  Definition mv_spec (ls : list (list T)) (o : mop T) (ls' : list (list T)) (out : mout T) : Prop :=
    let at_ i := nth i ls [] in
    let becomes i l := ls' = replaced ls i l /\ out = MoNothing in
    match o with
    | MvOn i o => exists l', cspec dflt eqb lt (at_ i) o l' /\ becomes i l'
    | MvAssign i j | MvCopyNew i j => becomes i (at_ j)
    | MvSwap i j => ls' = replaced (replaced ls i (at_ j)) j (at_ i) /\ out = MoNothing
    | MvMoveNew i j => ls' = replaced (replaced ls j []) i (at_ j) /\ out = MoNothing
    | MvInsert i ip j a b => becomes i (seq_insert (at_ i) ip (slice (at_ j) a b))
    | MvAssignRange i j a b => becomes i (slice (at_ j) a b)
    | MvAppend i j => becomes i (at_ i ++ at_ j)
    | MvCopyIf i j p => becomes i (at_ i ++ filter p (at_ j))
    | MvRemoveCopy i j x => becomes i (at_ i ++ filter (fun y => negb (eqb y x)) (at_ j))
    | MvRemoveCopyIf i j p => becomes i (at_ i ++ filter (fun y => negb (p y)) (at_ j))
    | MvCopyTo i a j => becomes i (overwritten (at_ i) a (at_ j))
    | MvUniqueTo i a j => becomes i (overwritten (at_ i) a (run_heads eqb (at_ j)))
    | MvTransformTo i a j f => becomes i (overwritten (at_ i) a (map f (at_ j)))
    | MvTransform2 i a j k f =>
        becomes i (overwritten (at_ i) a (map (fun xy => f (fst xy) (snd xy)) (combine (at_ j) (at_ k))))
    | MvFill i x => becomes i (repeat x (length (at_ i)))
    | MvFind i x => ls' = ls /\ exists k, out = MoPos k /\ FirstOrEnd (holds_at (fun y => eqb y x) (at_ i)) (length (at_ i)) k
    | MvFindIf i p => ls' = ls /\ exists k, out = MoPos k /\ FirstOrEnd (holds_at p (at_ i)) (length (at_ i)) k
    | MvCount i x => ls' = ls /\ out = MoPos (length (filter (fun y => eqb y x) (at_ i)))
    | MvCountIf i p => ls' = ls /\ out = MoPos (length (filter p (at_ i)))
    | MvLower i x => ls' = ls /\ exists k, out = MoPos k /\
        FirstOrEnd (holds_at (fun y => negb (lt y x)) (at_ i)) (length (at_ i)) k
    | MvUpper i x => ls' = ls /\ exists k, out = MoPos k /\
        FirstOrEnd (holds_at (fun y => lt x y) (at_ i)) (length (at_ i)) k
    | MvSearch i x => ls' = ls /\ exists b, out = MoBool b /\
        (b = true <-> exists y, In y (at_ i) /\ lt y x = false /\ lt x y = false)
    | MvContents i => ls' = ls /\ out = MoList (at_ i)
    end.

  Fixpoint mv_pres (ls : list (list T)) (ops : list (mop T)) : Prop :=
    match ops with
    | [] => True
    | o :: t => mv_pre ls o /\ forall ls' out, mv_spec ls o ls' out -> mv_pres ls' t
    end.
  Inductive mv_specs : list (list T) -> list (mop T) -> list (list T) -> list (mout T) -> Prop :=
  | ms_nil ls : mv_specs ls [] ls []
  | ms_cons ls o ls1 out t ls2 r : mv_spec ls o ls1 out -> mv_specs ls1 t ls2 r -> mv_specs ls (o :: t) ls2 (out :: r).
End Spec.
