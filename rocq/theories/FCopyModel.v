(** * FCopyModel: copying an fstream. *)
From Verif Require Import Base FdModel.

(** fstream.h:23-68: no copy constructor is declared, the implicit one copies
    the state, the descriptor number and the name. *)
Definition fs_copy (f : fstr) : fstr := mkfs (fs_fd f) (fs_name f) (fs_state f) (fs_exc f).
(** { fstream g (f); } -- the copy is made and destroyed again. *)
Definition copy_and_destroy (keeps asserts : bool) (k : kern) (f : fstr) : outcome (kern * fstr * bool) :=
  fs_destroy keeps asserts k (fs_copy f).
