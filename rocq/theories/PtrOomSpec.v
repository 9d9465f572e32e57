(** * PtrOomSpec: a failed allocation changes nothing. *)
From Verif Require Import Base PtrModel PtrSpec PtrOomModel AssocSpec.
From Coq Require Import ZArith.

(** The operation needs memory and gets none. *)
Definition fails (ob : memop) : bool :=
  match ob with (ShOf _ _, false) | (ShReset _ (Some _), false) => true | _ => false end.
Definition ms_after (s : sspec) (ob : memop) : sspec := if fails ob then s else sp_after s (fst ob).
(** A failing operation throws, deletes nothing and leaves all variables as they are. *)
Definition ms_step (s : sspec) (ob : memop) : sspec * memres :=
  if fails ob then (s, (([], PNone), true))
  else let (s', r) := sp_step s (fst ob) in (s', (r, false)).
Fixpoint ms_pres (s : sspec) (ops : list memop) : Prop :=
  match ops with [] => True | o :: t => sp_pre s (fst o) /\ ms_pres (ms_after s o) t end.
(** The operations that did not fail. *)
Definition kept (ops : list memop) : list shop := map fst (filter (fun ob => negb (fails ob)) ops).
(** What the operations deleted. *)
Definition deleted (rs : list memres) : list obj := flat_map (fun r => fst (fst r)) rs.
(** The object that variable [i] points to, if any. *)
Definition points_to (s : sspec) (i : nat) : option obj :=
  match var (sp_vars s) i with Some (Some (_, p)) => p | _ => None end.
