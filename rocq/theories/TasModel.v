(** * TasModel: uutility.h [TestAndSet] called by several threads.

    Threads take turns in any order, one memory access a turn; the memory is
    sequentially consistent. *)
From Verif Require Import Base.
From Coq Require Import ZArith List.
Import ListNotations.
Local Open Scope Z_scope.

(** A call in progress: not started; (only in the version without an atomic
    instruction) having read the old value; returned. *)
Inductive call := NotYet | HasRead (old : Z) | Done (r : bool).
(** What a thread does in one turn: go on with its call, or (after a call that
    returned true) set the variable back to 0. *)
Inductive turn := Go (t : nat) | Back (t : nat).
Record tas := mkt { t_var : Z; t_calls : list call }.
Definition call_of (s : tas) (t : nat) : call := nth t (t_calls s) NotYet.
Fixpoint set_call (l : list call) (t : nat) (c : call) : list call :=
  match l, t with [], _ => [] | _ :: l, O => c :: l | x :: l, S t => x :: set_call l t c end.
(** uutility.h:231-234: x86, xchgl exchanges in one step; the result is !oldVal. *)
Definition go_x86 (s : tas) (t : nat) : tas :=
  match call_of s t with
  | Done _ => s
  | _ => mkt 1 (set_call (t_calls s) t (Done (t_var s =? 0)))
  end.
(** uutility.h:240-242: elsewhere, a load and a store. *)
Definition go_other (s : tas) (t : nat) : tas :=
  match call_of s t with
  | NotYet => mkt (t_var s) (set_call (t_calls s) t (HasRead (t_var s)))
  | HasRead old => mkt 1 (set_call (t_calls s) t (Done (old =? 0)))
  | Done _ => s
  end.
(** The owner's "*pm = 0"; it may then call again. *)
Definition back (s : tas) (t : nat) : tas :=
  match call_of s t with
  | Done true => mkt 0 (set_call (t_calls s) t NotYet)
  | _ => s
  end.
(** A thread whose call returned false may call again. *)
Definition tstep (go : tas -> nat -> tas) (s : tas) (w : turn) : tas :=
  match w with
  | Go t => match call_of s t with
            | Done false => go (mkt (t_var s) (set_call (t_calls s) t NotYet)) t
            | _ => go s t
            end
  | Back t => back s t
  end.
Definition trun (go : tas -> nat -> tas) (sched : list turn) (s : tas) : tas := fold_left (tstep go) sched s.
Definition tinit (n : nat) (v : Z) : tas := mkt v (repeat NotYet n).
