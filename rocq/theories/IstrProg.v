(** * IstrProg: a program that makes a sequence of requests of a text stream. *)
From Verif Require Import Base StreamModel IstrModel IstrSpec.
From Coq Require Import ZArith.

(** sistream.cc:212-220 (getline), 136-169 (a string), 181-194 (get). *)
Definition read_one (uf : Z -> io ist Z) (fuel : nat) (r : treq) : io ist (list Z) :=
  match r with
  | RLine d => getline uf fuel d
  | RWord => iread_string uf fuel
  | RGet n d => get_chars uf fuel n d
  end.
Fixpoint read_all (uf : Z -> io ist Z) (fuel : nat) (ops : list treq) : io ist (list (list Z)) :=
  match ops with
  | [] => ret []
  | r :: ops' => a <~ read_one uf fuel r ;; l <~ read_all uf fuel ops' ;; ret (a :: l)
  end.
