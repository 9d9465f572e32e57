(** * ScopeSpec: what is said about guards in programs. *)
From Verif Require Import Base ScopeModel.

Definition event_dec (a b : event) : {a = b} + {a <> b}.
Proof. repeat decide equality. Defined.
(** How often an event is in a log. *)
Definition times (e : event) (l : list event) : nat := count_occ event_dec l e.

(** Callbacks that do not throw. *)
Fixpoint quiet (p : stmt) : Prop :=
  match p with
  | Guard c | GuardOff c | ResetTo _ c => cb_throws c = None
  | Seq a b | Try a b => quiet a /\ quiet b
  | Block b | Loop _ b | Call b => quiet b
  | _ => True
  end.

(** How many guards a statement that completes leaves in the enclosing block. *)
Fixpoint declares (p : stmt) : nat :=
  match p with
  | Guard _ | GuardOff _ | MoveNew _ => 1
  | Seq a b => declares a + declares b
  | _ => 0
  end.
(** The guard at place [d] of the stack is not mentioned: not moved from,
    assigned to or from, released or reset. *)
Fixpoint untouched (d : nat) (p : stmt) : Prop :=
  match p with
  | MoveNew k | Release k | Reset k | ResetTo k _ => k <> d
  | Assign k j => k <> d /\ j <> d
  | Seq a b => untouched d a /\ untouched (declares a + d) b
  | Block b | Loop _ b | Call b => untouched d b
  | Try a b => untouched d a /\ untouched d b
  | _ => True
  end.
