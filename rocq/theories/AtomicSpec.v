(** * AtomicSpec: what users expect of atomic objects. *)
From Verif Require Import Base AtomicModel.
From Coq Require Import ZArith.
Open Scope Z_scope.

Section Serial.
Context {V A R : Type}.
Variable sem : A -> V -> V * R.     (* an operation: new value, result *)

(** Operations of several threads executed one at a time. *)
Fixpoint one_at_a_time (v : V) (order : list (nat * A)) : V * list (nat * R) :=
  match order with
  | [] => (v, [])
  | (i, a) :: r =>
      let (v', x) := sem a v in
      let (v'', xs) := one_at_a_time v' r in (v'', (i, x) :: xs)
  end.
End Serial.

(** The part of a merged list that belongs to thread [i]. *)
Definition of_thread {A} (i : nat) (l : list (nat * A)) : list A :=
  map snd (filter (fun p => Nat.eqb (fst p) i) l).

(** [v] and the results are those of the operations done so far, executed one
    at a time in some order that respects the program of every thread.  For each
    thread: its program, what is left of it, and the results it has got. *)
Definition linear {V A R} (sem : A -> V -> V * R) (v0 v : V)
  (progs left : list (list A)) (results : list (list R)) : Prop :=
  length left = length progs /\ length results = length progs /\
  exists order, (forall p, In p order -> (fst p < length progs)%nat) /\
    fst (one_at_a_time sem v0 order) = v /\
    (forall i, nth i progs [] = of_thread i order ++ nth i left []) /\
    (forall i, nth i results [] = of_thread i (snd (one_at_a_time sem v0 order))).

(** The calls on an integer of w bits: new value and what is returned. *)
Definition call_means (w : Z) (a : acall) (x : Z) : Z * reply :=
  match a with
  | CLoad => (x, Reply x false)
  | CStore v => (v, Reply 0 false)
  | CExchange v => (v, Reply x false)
  | CFetchAdd v => ((x + v) mod 2 ^ w, Reply x false)
  | CFetchSub v => ((x - v) mod 2 ^ w, Reply x false)
  | CFetchAnd v => (Z.land x v, Reply x false)
  | CFetchOr v => (Z.lor x v, Reply x false)
  | CFetchXor v => (Z.lxor x v, Reply x false)
  | CAddFetch v => ((x + v) mod 2 ^ w, Reply ((x + v) mod 2 ^ w) false)
  | CSubFetch v => ((x - v) mod 2 ^ w, Reply ((x - v) mod 2 ^ w) false)
  | CAndFetch v => (Z.land x v, Reply (Z.land x v) false)
  | COrFetch v => (Z.lor x v, Reply (Z.lor x v) false)
  | CXorFetch v => (Z.lxor x v, Reply (Z.lxor x v) false)
  | CCompareExchange e d => if x =? e then (d, Reply x true) else (x, Reply x false)
  end.

(** An update by a function, reporting the value found. *)
Definition update_means (w : Z) (f : Z -> Z) (x : Z) : Z * Z := (f x mod 2 ^ w, x).
Definition plain_update_means (f : Z -> Z) (x : Z) : Z * Z := (f x, x).

(** The sum of a list. *)
Definition zsum (l : list Z) : Z := fold_right Z.add 0 l.

(** How many turns of a schedule go to threads that have not finished. *)
Definition unfinished {L} (cd : code L) (c : conf L) (i : nat) : bool :=
  match nth_error (cths c) i with
  | Some l => match cd l with Some _ => true | None => false end
  | None => false
  end.

Fixpoint moves {L} (w : Z) (cd : code L) (sched : list (nat * bool)) (c : conf L) : nat :=
  match sched with
  | [] => 0
  | t :: r => (if unfinished cd c (fst t) then 1 else 0)
              + match turn w cd t c with Ok c' => moves w cd r c' | _ => 0 end
  end%nat.

(** A thread is between entering and leaving its critical section. *)
Definition inside (l : locker) : Prop := lphase l <> Outside.

(** What a call adds to the object, for the calls that only add. *)
Definition amount (a : acall) : option Z :=
  match a with
  | CFetchAdd v | CAddFetch v => Some v
  | CFetchSub v | CSubFetch v => Some (- v)
  | CLoad => Some 0
  | _ => None
  end.

Definition amount0 a := match amount a with Some v => v | None => 0 end.
