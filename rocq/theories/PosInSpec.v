(** * PosInSpec: reading text at a position of a file. *)
From Verif Require Import Base IstrSpec PosModel PosSpec PosProg.
From Coq Require Import ZArith.
Local Open Scope Z_scope.

(** What a history gets from the file [d], if the position is [q]: a read
    request takes from the text that begins there and moves the position over
    what it took. *)
Fixpoint visits (isd : Z -> bool) (d : list Z) (q : Z) (ops : list iop) : list ires :=
  match ops with
  | [] => []
  | InRead r :: t =>
      let txt := skipn (Z.to_nat q) d in
      let '(a, rest) := answer isd r txt in
      Text a :: visits isd d (q + (size txt - size rest)) t
  | InTell :: t => Position q :: visits isd d q t
  | InSeek n w :: t => Done :: visits isd d (seek_to q (size d) n w) t
  | InClear :: t => Done :: visits isd d q t
  end.
(** Seeks are from the beginning or the end, not to before the beginning, and
    made while there is something left to read, or when nothing was read since
    the stream was opened, cleared or made to seek. *)
Fixpoint sensible (isd : Z -> bool) (d : list Z) (fresh : bool) (q : Z) (ops : list iop) : Prop :=
  match ops with
  | [] => True
  | InRead r :: t =>
      let txt := skipn (Z.to_nat q) d in
      reasonable r /\ sensible isd d false (q + (size txt - size (snd (answer isd r txt)))) t
  | InTell :: t => sensible isd d fresh q t
  | InSeek n w :: t => (fresh = true \/ q < size d) /\ w <> Scur /\ 0 <= seek_to q (size d) n w /\ sensible isd d true (seek_to q (size d) n w) t
  | InClear :: t => sensible isd d true q t
  end.
(** How many answers of read(2) the history may need at most. *)
Fixpoint needs (d : list Z) (ops : list iop) : nat :=
  match ops with
  | [] => 0
  | InSeek _ _ :: t => length d + 1 + needs d t
  | InClear :: t => 1 + needs d t
  | _ :: t => needs d t
  end.
(** What a sequence of requests leaves of a text. *)
Fixpoint left_after (isd : Z -> bool) (ops : list treq) (txt : list Z) : list Z :=
  match ops with
  | [] => txt
  | r :: ops' => left_after isd ops' (snd (answer isd r txt))
  end.
