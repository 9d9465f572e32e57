(** * IHistModel: a program that reads text from a memory stream, moves in it,
    and gives it other texts. *)
From Verif Require Import Base UtilModel StringFindModel StreamModel FileModel IstrModel IstrSpec IstrProg PosModel.
From Coq Require Import ZArith.
Local Open Scope Z_scope.

Inductive hop : Type :=
| HRead (r : treq)                    (* getline, >> string, get (p, n) *)
| HGet | HPeek | HUnget               (* get (), peek (), unget () *)
| HTell | HSeek (n : Z) (d : seekdir) (* tellg (), seekg (n, d) *)
| HText                               (* str () *)
| HStr (t : list Z)                   (* str (t) *)
| HClear.                             (* clear () *)
Inductive hres : Type := GotText (l : list Z) | GotChar (c : Z) | GotPos (n : Z) | GotNothing.

(** mistream.h:199-206 [seekg]; the position has 64 bits. *)
Definition t_seekg (n : Z) (d : seekdir) : io ist unit :=
  fun s => t_seek (u64 (match d with Sbeg => n | Scur => t_pos s + n | Send => t_size s - n end)) s.
(** sistream.h:55 [str ()]: a string linked to the whole text. *)
Definition t_str : io ist (list Z) :=
  fun s => match t_bytes 0 (Z.to_nat (t_size s)) s with Ok l => Ok (s, Val l) | UB => UB | Exn x => Exn x | NoFuel => NoFuel end.
(** sistream.h:56 [str (s)]: the stream is linked to the string's text, which a
    zero follows; cmemlink::link sets the position to 0. *)
Definition t_set_str (t : list Z) : io ist unit :=
  fun s => Ok (tput_view (map Some t ++ [Some 0]) (Z.of_nat (length t)) s, Val tt).
(** sistream.h:58 (get), 64 (peek), 65 (unget), mistream.h:102 (tellg), uios.h:87 (clear). *)
Definition hstep (fuel : nat) (o : hop) : io ist hres :=
  match o with
  | HRead r => l <~ read_one iss_underflow fuel r ;; ret (GotText l)
  | HGet => c <~ t_get iss_underflow fuel ;; ret (GotChar c)
  | HPeek => c <~ t_peek iss_underflow fuel ;; ret (GotChar c)
  | HUnget => _ <~ t_ungetc ;; ret GotNothing
  | HTell => fun s => Ok (s, Val (GotPos (t_pos s)))
  | HSeek n d => _ <~ t_seekg n d ;; ret GotNothing
  | HText => l <~ t_str ;; ret (GotText l)
  | HStr t => _ <~ t_set_str t ;; ret GotNothing
  | HClear => fun s => Ok (tput_state 0 s, Val GotNothing)
  end.
Fixpoint hrun (fuel : nat) (ops : list hop) : io ist (list hres) :=
  match ops with
  | [] => ret []
  | o :: t => x <~ hstep fuel o ;; xs <~ hrun fuel t ;; ret (x :: xs)
  end.
