(** * LifeInSpec: reading several files with one ifstream. *)
From Verif Require Import Base UtilModel StreamModel FileModel IstrModel IstrSpec IstrProg LifeInModel.
From Coq Require Import ZArith.
Local Open Scope Z_scope.

(** The lines of several files, one after the other. *)
Fixpoint read_files (fuel : nat) (d : Z) (fs : list file) : io ist (list (list (list Z))) :=
  match fs with
  | [] => ret []
  | f :: t =>
      _ <~ ifs_open (Some f) ;;
      ls <~ times (length (pieces d (f_in f))) (getline ifs_underflow fuel d) ;;
      r <~ read_files fuel d t ;; ret (ls :: r)
  end.
