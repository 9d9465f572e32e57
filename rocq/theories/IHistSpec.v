(** * IHistSpec: a text and a position in it. *)
From Verif Require Import Base IstrSpec PosModel PosSpec IHistModel.
From Coq Require Import ZArith.
Local Open Scope Z_scope.

(** Where a seek goes to in a memory stream: from the end it counts backwards. *)
Definition goes_to (q n : Z) (d : list Z) (w : seekdir) : Z := match w with Sbeg => n | Scur => q + n | Send => size d - n end.
(** The text and the position after an operation, and what it gives; [isd] are the delimiters. *)
Definition moves (isd : Z -> bool) (d : list Z) (q : Z) (o : hop) : list Z * Z * hres :=
  let txt := skipn (Z.to_nat q) d in
  match o with
  | HRead r => let '(a, rest) := answer isd r txt in (d, size d - size rest, GotText a)
  | HGet => (d, q + 1, GotChar (hd 0 txt))
  | HPeek => (d, q, GotChar (hd 0 txt))
  | HUnget => (d, q - 1, GotNothing)
  | HTell => (d, q, GotPos q)
  | HSeek n w => (d, goes_to q n d w, GotNothing)
  | HText => (d, q, GotText d)
  | HStr t => (t, 0, GotNothing)
  | HClear => (d, q, GotNothing)
  end.
Fixpoint gives (isd : Z -> bool) (d : list Z) (q : Z) (ops : list hop) : list hres :=
  match ops with
  | [] => []
  | o :: t => let '(d', q', r) := moves isd d q o in r :: gives isd d' q' t
  end.
(** Characters are asked for where there are some, seeks go to places in the
    text; no text is longer than [m]; words are asked of texts without quotes.
    Going back needs [fresh]: after a read that may have met the end, clear ()
    comes first, unless there is something left to read. *)
Definition possible (m : nat) (d : list Z) (fresh : bool) (q : Z) (o : hop) : Prop :=
  let there := fresh = true \/ q < size d in
  match o with
  | HRead r => reasonable r /\ (r = RWord -> Forall plain d)
  | HGet | HPeek => q < size d
  | HUnget => 1 <= q /\ there
  | HSeek n w => 0 <= goes_to q n d w <= size d /\ there
  | HStr t => (length t <= m)%nat /\ there
  | HTell | HText | HClear => True
  end.
Definition still_fresh (fresh : bool) (o : hop) : bool :=
  match o with
  | HRead _ => false
  | HTell | HText => fresh
  | _ => true
  end.
Fixpoint all_possible (m : nat) (isd : Z -> bool) (d : list Z) (fresh : bool) (q : Z) (ops : list hop) : Prop :=
  match ops with
  | [] => True
  | o :: t => possible m d fresh q o /\ let '(d', q', _) := moves isd d q o in all_possible m isd d' (still_fresh fresh o) q' t
  end.
