(** * OwnModel: objects that own each other through shared_ptr (umemory.h).

    An object is created by make_shared and has a number of members of type
    shared_ptr; [Some c] is a pointer to the container (and its object) number
    c, [None] is null.  A container and its object are one [cell]: each
    container holds one object, which nothing else owns.  The count is a
    natural number: 2^64 pointers of 8 bytes each do not fit in the address
    space, so size_t cannot wrap. *)
From Verif Require Import Base.

(** umemory.h:169-174 [container]: the count, and the members of the object. *)
Record cell := Cell { refs : nat; fields : list (option nat) }.
(** The cells ever made; [None] is one that was deleted. *)
Definition cells := list (option cell).
Record own := Own { o_cells : cells; o_vars : list (option nat) }.

(** Following a pointer; to follow one to a deleted object is undefined. *)
Definition cell_at (cs : cells) (c : nat) : outcome cell :=
  k <- rd cs c ;; match k with Some k => Ok k | None => UB end.

(** Where a shared_ptr can be: a variable, or member j of object c. *)
Inductive loc := LVar (i : nat) | LField (c j : nat).
Definition get (s : own) (l : loc) : outcome (option nat) :=
  match l with
  | LVar i => rd (o_vars s) i
  | LField c j => k <- cell_at (o_cells s) c ;; rd (fields k) j
  end.
Definition put (s : own) (l : loc) (p : option nat) : outcome own :=
  match l with
  | LVar i => vs <- wr (o_vars s) i p ;; Ok (Own (o_cells s) vs)
  | LField c j =>
      k <- cell_at (o_cells s) c ;;
      fs <- wr (fields k) j p ;;
      cs <- wr (o_cells s) c (Some (Cell (refs k) fs)) ;;
      Ok (Own cs (o_vars s))
  end.

(** The destruction of the first j members of object c, the last one first:
    each runs ~shared_ptr, umemory.h:180, that is reset() (184-190): the
    member becomes null before its count is lowered. *)
Fixpoint drop_fields (rel : cells -> nat -> outcome (cells * list nat)) (cs : cells) (c j : nat) : outcome (cells * list nat) :=
  match j with
  | O => Ok (cs, [])
  | S j =>
      k <- cell_at cs c ;;
      p <- rd (fields k) j ;;
      fs <- wr (fields k) j None ;;
      cs <- wr cs c (Some (Cell (refs k) fs)) ;;
      ' (cs, tr) <- match p with None => Ok (cs, []) | Some d => rel cs d end ;;
      ' (cs, tr') <- drop_fields rel cs c j ;;
      Ok (cs, tr ++ tr')
  end.
(** umemory.h:188-189 [if (ov && !--ov->refs) delete ov], with the destructor
    of container (173; its assertion holds) and of the object.  Returns the
    objects deleted, in the order in which their destructors end.  Fuel: the
    depth of the recursion. *)
Fixpoint release (fuel : nat) (cs : cells) (c : nat) : outcome (cells * list nat) :=
  match fuel with
  | O => NoFuel
  | S f =>
      k <- cell_at cs c ;;
      match refs k with
      | O => UB
      | S O =>
          cs <- wr cs c (Some (Cell 0 (fields k))) ;;
          ' (cs, tr) <- drop_fields (release f) cs c (length (fields k)) ;;
          cs <- wr cs c None ;;
          Ok (cs, tr ++ [c])
      | S (S r) => cs <- wr cs c (Some (Cell (S r) (fields k))) ;; Ok (cs, [])
      end
  end.
(** Giving up the pointer p, which is stored nowhere any more. *)
Definition give_up (s : own) (p : option nat) : outcome (own * list nat) :=
  match p with
  | None => Ok (s, [])
  | Some c => ' (cs, tr) <- release (S (length (o_cells s))) (o_cells s) c ;; Ok (Own cs (o_vars s), tr)
  end.
(** umemory.h:179: ++_p->refs *)
Definition addref (s : own) (p : option nat) : outcome own :=
  match p with
  | None => Ok s
  | Some c =>
      k <- cell_at (o_cells s) c ;;
      cs <- wr (o_cells s) c (Some (Cell (S (refs k)) (fields k))) ;; Ok (Own cs (o_vars s))
  end.

(** A place the program names: a variable, followed by members, as in
    v->f->g.  operator-> (umemory.h:197) on a null pointer is undefined. *)
Record place := Place { p_var : nat; p_path : list nat }.
Fixpoint walk (s : own) (l : loc) (path : list nat) : outcome loc :=
  match path with
  | [] => Ok l
  | j :: t => p <- get s l ;; match p with None => UB | Some c => walk s (LField c j) t end
  end.
Definition find (s : own) (pl : place) : outcome loc := walk s (LVar (p_var pl)) (p_path pl).

Inductive oop : Type :=
| New (pl : place) (n : nat)   (* pl = make_shared<T>(); T has n members *)
| Copy (pl q : place)          (* pl = shared_ptr<T> (q); *)
| Move (pl q : place)          (* pl = move (q); *)
| Reset (pl : place).          (* pl.reset(); and pl = nullptr; *)

(** pl = a temporary that holds p: operator= (shared_ptr&&) swaps (umemory.h:
    191, 194), then the temporary is destroyed (180). *)
Definition assign (s : own) (l : loc) (p : option nat) : outcome (own * list nat) :=
  old <- get s l ;; s <- put s l p ;; give_up s old.
Definition own_step (s : own) (o : oop) : outcome (own * list nat) :=
  match o with
  | New pl n =>                (* umemory.h:177, 210-211: a new container counts 1 *)
      l <- find s pl ;;
      assign (Own (o_cells s ++ [Some (Cell 1 (repeat None n))]) (o_vars s)) l (Some (length (o_cells s)))
  | Copy pl q =>               (* umemory.h:179, 194; operator= (const shared_ptr&) does not compile *)
      l <- find s pl ;; m <- find s q ;;
      p <- get s m ;; s <- addref s p ;; assign s l p
  | Move pl q =>               (* umemory.h:194: swap *)
      l <- find s pl ;; m <- find s q ;;
      a <- get s l ;; b <- get s m ;;
      s <- put s l b ;; s <- put s m a ;; Ok (s, [])
  | Reset pl =>                (* umemory.h:184-190 *)
      l <- find s pl ;; old <- get s l ;; s <- put s l None ;; give_up s old
  end.
(** A program; the objects each operation deletes. *)
Fixpoint own_run (s : own) (ops : list oop) : outcome (own * list (list nat)) :=
  match ops with
  | [] => Ok (s, [])
  | o :: t =>
      ' (s, tr) <- own_step s o ;;
      ' (s, trs) <- own_run s t ;; Ok (s, tr :: trs)
  end.
Definition own0 (n : nat) : own := Own [] (repeat None n).
