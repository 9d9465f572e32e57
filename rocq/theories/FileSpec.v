(** * FileSpec: what a user expects of fstream transfers.  Independent of how
    the loops are written. *)
From Verif Require Import Base StreamModel FileModel.
From Coq Require Import ZArith.

(** The answers the operating system gave to this call. *)
Definition used (before after : list sysres) (u : list sysres) : Prop := before = u ++ after.

(** Answers which do not stop a transfer. *)
Definition progress (r : sysres) : Prop :=
  match r with SOk k => 0 < k | SIntr => True | _ => False end.
Definition retried (r : sysres) : Prop :=
  match r with SOk _ | SIntr => True | _ => False end.
(** How many bytes these answers allow to be written at most. *)
Fixpoint offered (u : list sysres) : nat :=
  match u with [] => 0 | SOk k :: t => k + offered t | _ :: t => offered t end.

(** The state bits an answer that stopped a write leaves behind. *)
Definition stop_bits (r : sysres) : Z :=
  match r with SOk _ => Z.lor eofbit failbit | SErr => failbit | _ => 0%Z end.

(** Answers which do not fail, and how many bytes they allow to be read. *)
Definition no_error (r : sysres) : Prop := r <> SErr.
Fixpoint offered_read (u : list sysres) : nat :=
  match u with [] => 0 | SOk k :: t => S k + offered_read t | _ :: t => offered_read t end.

(** The same file when no signal ever interrupts a call. *)
Definition is_intr (r : sysres) : bool := match r with SIntr => true | _ => false end.
Definition uninterrupted (f : file) : file :=
  mkf (f_state f) (f_exc f) (f_out f) (f_in f) (filter (fun r => negb (is_intr r)) (f_sched f)).
