(** * SysSpec: what a user expects of mappings and descriptor flags. *)
From Verif Require Import Base FdModel SysModel.
From Coq Require Import ZArith List.
Import ListNotations.
Local Open Scope Z_scope.

(** The start: no mappings, empty links. *)
Definition fresh (s : fs) (v : vars) : Prop :=
  sk_maps (f_k s) = [] /\ sk_wild (f_k s) = false /\ Forall (fun l => l = no_link) v.
(** A link can be read and written: all its bytes are in one live mapping. *)
Definition usable (k : sk) (l : link) : Prop := In l (sk_maps k).
Definition empty_link (l : link) : Prop := l = no_link.
(** The bit of O_NONBLOCK. *)
Definition nonblock_bit : Z := 11.
