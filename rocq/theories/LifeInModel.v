(** * LifeInModel: an ifstream through several files.

    The answers of open(2) are part of the operation; an open file comes with
    its content and the answers its read(2) calls will get.  Simplified: close(2)
    succeeds (FdModel has its failures); exceptions() is goodbit. *)
From Verif Require Import Base UtilModel StreamModel FileModel FdModel IstrModel.
From Coq Require Import ZArith.
Local Open Scope Z_scope.

(** What read(2) sees when no file is open: EBADF. *)
Definition no_input (state : Z) : file := mkf state 0 [] [] [SErr].
(** ofstream.h:50 [open], fstream.cc:64-73, 110-114: [a] is what open(2) gave. *)
Definition ifs_open (a : option file) : io ist unit :=
  fun s =>
    let f := match a with
             | Some f => mkf 0 (f_exc (t_file s)) (f_out f) (f_in f) (f_sched f)
             | None => no_input badbit
             end in
    Ok (tput_state (f_state f) (tput_file f s), Val tt).
(** ofstream.h:51 [close], fstream.cc:117-128. *)
Definition ifs_close : io ist unit :=
  fun s => let st := f_state (t_file s) in Ok (tput_state st (tput_file (no_input st) s), Val tt).
(** sistream.h:71 [istringstream::sync]; ofstream.cc:162-168 [ifstream::sync]. *)
Definition ifs_sync : io ist Z :=
  _ <~ (fun s => t_skip (t_remaining s) s) ;;
  _ <~ ifs_underflow 0 ;;
  fun s => let s := tput_state (f_state (t_file s)) s in Ok (s, Val (if t_good s then -1 else 0)).
(** ofstream.cc:91-97: no file, a buffer of [sz] bytes. *)
Definition ifs_unattached (sz : nat) : ist := ifs_new sz (no_input 0).
