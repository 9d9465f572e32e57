(** * OwnSpec: what a program with owning pointers means if memory were
    collected by nobody: objects are never deleted, assignments only change
    where pointers point. *)
From Verif Require Import Base OwnModel.

Record graph := G { g_vars : list (option nat); g_objs : list (list (option nat)) }.
Definition lset {A} (l : list A) (i : nat) (x : A) : list A := firstn i l ++ x :: skipn (S i) l.

(** The pointer at a place, if there is such a place. *)
Definition points (g : graph) (l : loc) : option (option nat) :=
  match l with
  | LVar i => nth_error (g_vars g) i
  | LField c j => match nth_error (g_objs g) c with Some fs => nth_error fs j | None => None end
  end.
Fixpoint follow (g : graph) (l : loc) (path : list nat) : option loc :=
  match path with
  | [] => Some l
  | j :: t => match points g l with Some (Some c) => follow g (LField c j) t | _ => None end
  end.
Definition there (g : graph) (pl : place) : option loc := follow g (LVar (p_var pl)) (p_path pl).
Definition aim (g : graph) (l : loc) (p : option nat) : graph :=
  match l with
  | LVar i => G (lset (g_vars g) i p) (g_objs g)
  | LField c j => G (g_vars g) (lset (g_objs g) c (lset (nth c (g_objs g) []) j p))
  end.

(** One operation; [None] if it names a place that does not exist. *)
Definition exists_at (g : graph) (pl : place) : option (loc * option nat) :=
  match there g pl with
  | Some l => match points g l with Some p => Some (l, p) | None => None end
  | None => None
  end.
Definition graph_step (g : graph) (o : oop) : option graph :=
  match o with
  | New pl n =>
      match exists_at g pl with
      | Some (l, _) => Some (aim (G (g_vars g) (g_objs g ++ [repeat None n])) l (Some (length (g_objs g))))
      | None => None
      end
  | Copy pl q =>
      match exists_at g pl, exists_at g q with
      | Some (l, _), Some (_, p) => Some (aim g l p)
      | _, _ => None
      end
  | Move pl q =>          (* swaps *)
      match exists_at g pl, exists_at g q with
      | Some (l, a), Some (m, b) => Some (aim (aim g l b) m a)
      | _, _ => None
      end
  | Reset pl => match exists_at g pl with Some (l, _) => Some (aim g l None) | None => None end
  end.
Fixpoint graph_run (g : graph) (ops : list oop) : option graph :=
  match ops with
  | [] => Some g
  | o :: t => match graph_step g o with Some g' => graph_run g' t | None => None end
  end.
Definition graph0 (n : nat) : graph := G (repeat None n) [].

(** Object c has a member that points to d. *)
Definition edge (g : graph) (c d : nat) : Prop := exists j, points g (LField c j) = Some (Some d).
Inductive reachable (g : graph) : nat -> Prop :=
| by_var i c : points g (LVar i) = Some (Some c) -> reachable g c
| by_member c d : reachable g c -> edge g c d -> reachable g d.
Inductive path (g : graph) : nat -> nat -> Prop :=
| one_step c d : edge g c d -> path g c d
| more_steps c d e : edge g c d -> path g d e -> path g c e.
Definition acyclic (g : graph) : Prop := forall c, ~ path g c c.
