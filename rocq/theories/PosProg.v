(** * PosProg: a program that reads text from a file and seeks in it. *)
From Verif Require Import Base StreamModel FileModel IstrModel IstrSpec IstrProg PosModel.
From Coq Require Import ZArith.
Local Open Scope Z_scope.

Inductive iop := InRead (r : treq) | InTell | InSeek (n : Z) (d : seekdir) | InClear.
Inductive ires := Text (l : list Z) | Position (n : Z) | Done.
(** ofstream.h:55 (clear), 56 (tellg), ofstream.cc:171-178 (seekg); reading as in IstrProg. *)
Definition pi_step (fuel : nat) (o : iop) : io pif ires :=
  match o with
  | InRead r => l <~ on_text (read_one ifs_underflow fuel r) ;; ret (Text l)
  | InTell => n <~ pi_tellg ;; ret (Position n)
  | InSeek n d => _ <~ pi_seekg n d ;; ret Done
  | InClear => _ <~ pi_clear 0 ;; ret Done
  end.
Fixpoint pi_run (fuel : nat) (ops : list iop) : io pif (list ires) :=
  match ops with
  | [] => ret []
  | o :: t => x <~ pi_step fuel o ;; xs <~ pi_run fuel t ;; ret (x :: xs)
  end.
(** The stream with the delimiters [dl]. *)
Definition pi_delims (dl : list Z) (p : pif) : pif := mkpi (pi_data p) (pi_pos p) (set_delimiters dl (pi_s p)).
(** Requests, one character, another put back in its place, requests
    (sistream.h:58 get, ofstream.h:61 putback). *)
Definition with_putback (fuel : nat) (ops : list treq) (x : Z) (ops' : list treq) : io ist (list (list Z) * Z * list (list Z)) :=
  a <~ read_all ifs_underflow fuel ops ;;
  c <~ t_get ifs_underflow fuel ;;
  _ <~ t_putback x ;;
  b <~ read_all ifs_underflow fuel ops' ;;
  ret (a, c, b).
