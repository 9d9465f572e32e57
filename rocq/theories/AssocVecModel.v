(** * AssocVecModel: what set and map inherit from vector and do not override,
    the sized constructors, and map::find_data.

    [step] is the container's own operation ([set_step], [map_step]). *)
From Verif Require Import Base UtilModel StoreModel VectorModel ArrayModel AssocModel.
From Coq Require Import ZArith.
Local Open Scope nat_scope.

Section Inherited.
  Context {A O R : Type}.
  Variable e : env.
  Variable es : Z.
  Variable dflt : A.
  Variable step : vec A -> O -> outcome (vec A * R).

  Inductive iop : Type :=
  | IDo (o : O)
  | IPopBack                       (* uvector.h:83 *)
  | IReserve (n : nat) (exact : bool)  (* uvector.h:50, 134-137 *)
  | IShrink                        (* uvector.h:85 *)
  | IFront | IBack                 (* uvector.h:78-81 *)
  | IDeallocate.                   (* uvector.h:86, 179-183 *)
  Inductive iout : Type := INone | IVal (x : A) | IRes (r : R).
  (** uset.h:17-86 and umap.h:29-106 derive from vector<T> publicly and leave
      these members as they are. *)
  Definition i_step (v : vec A) (o : iop) : outcome (vec A * iout) :=
    match o with
    | IDo o => ' (v', r) <- step v o ;; Ok (v', IRes r)
    | IPopBack => v' <- pop_back v ;; Ok (v', INone)
    | IReserve n b => ' (v', _) <- vreserve e es v n b ;; Ok (v', INone)
    | IShrink => v' <- shrink_to_fit e es v ;; Ok (v', INone)
    | IFront => x <- vat v 0 ;; Ok (v, IVal x)
    | IBack => if Nat.eqb (vsize v) 0 then UB else x <- vat v (vsize v - 1) ;; Ok (v, IVal x)
    | IDeallocate => v' <- deallocate v ;; Ok (v', INone)
    end.
  (** uset.h:38, umap.h:55, umultiset.h:38, umultimap.h [set (n)] with
      uvector.h:194-198: [n] default elements. *)
  Definition sized (n : nat) : outcome (vec A) := resize e es dflt vec_nil n.
  (** *it = x, s[i] = x, s.front() = x: a plain store through a non-const
      iterator or reference (uset.h:44, uvector.h:62-82). *)
  Definition poke (v : vec A) (i : nat) (x : A) : outcome (vec A) :=
    if vsize v <=? i then UB else
    cells <- assign_cells (vcells v) i [x] ;; Ok (mkvec cells (vsize v) (vcap v)).
End Inherited.
Arguments iop : clear implicits.
Arguments iout : clear implicits.

Section Data.
  Context {K V : Type}.
  Variable veqb : V -> V -> bool.    (* operator== of V; != is its negation *)
  (** umap.h:120 the loop: [n] positions from [i]. *)
  Fixpoint fd_loop (v : vec (K * V)) (x : V) (i n : nat) : outcome nat :=
    match n with
    | O => Ok i
    | S n' => p <- vat v i ;; if veqb (snd p) x then Ok i else fd_loop v x (S i) n'
    end.
  (** umap.h:116-122 [find_data (v, first, last)]; [None] is nullptr, replaced
      by begin() and end().  With last before first the loop runs off. *)
  Definition find_data (v : vec (K * V)) (x : V) (first last : option nat) : outcome nat :=
    let f := match first with Some i => i | None => 0 end in
    let l := match last with Some i => i | None => vsize v end in
    if l <? f then UB else fd_loop v x f (l - f).
End Data.
