(** * FunObjSpec: what calling a function object on a sequence means. *)
From Coq Require Import List.
Import ListNotations.

Section Calls.
  Context {W X Y : Type}.
  (** The calls [c x1], [c x2], ... one after the other on the same world,
      up to the first that throws: the world afterwards, the values returned
      by the calls that did return, and whether all of them did. *)
  Fixpoint run_calls (c : W -> X -> W * option Y) (w : W) (l : list X) : W * list Y * bool :=
    match l with
    | [] => (w, [], true)
    | x :: t =>
        match c w x with
        | (w', None) => (w', [], false)
        | (w', Some y) => let '(w'', ys, ok) := run_calls c w' t in (w'', y :: ys, ok)
        end
    end.
End Calls.

(** Calls that are given the elements themselves: each may change its element,
    also before throwing; those after the one that throws stay. *)
Fixpoint run_on {W A} (f : W -> A -> W * A * bool) (w : W) (l : list A) : W * list A * bool :=
  match l with
  | [] => (w, [], true)
  | x :: t =>
      match f w x with
      | (w', x', true) => (w', x' :: t, false)
      | (w', x', false) => let '(w'', t', ok) := run_on f w' t in (w'', x' :: t', ok)
      end
  end.

(** Overwriting the beginning of a sequence. *)
Definition over {A} (ys l : list A) : list A := ys ++ skipn (length ys) l.
(** A value if the calls all returned. *)
Definition when {R} (ok : bool) (r : R) : option R := if ok then Some r else None.
(** The elements the predicate answered [b] for. *)
Definition answered {A} (b : bool) (l : list A) (ans : list bool) : list A :=
  map fst (filter (fun p => Bool.eqb (snd p) b) (combine l ans)).

(** A function object that writes down its arguments in the order of the calls
    and otherwise behaves as [c]. *)
Definition logged {W X Y} (c : W -> X -> W * option Y) : list X * W -> X -> (list X * W) * option Y :=
  fun s x => let '(w', r) := c (snd s) x in ((fst s ++ [x], w'), r).
