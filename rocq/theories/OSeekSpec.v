(** * OSeekSpec: the text of an ostringstream is what lies before its position. *)
From Coq Require Import List ZArith.
From Verif Require Import Base StoreModel MemModel StringModel OStrModel OStrSpec OSeekModel.
Import ListNotations.
Local Open Scope Z_scope.

(** Where a seek goes to in a text of [n] bytes. *)
Definition target (n : nat) (p : Z) (d : seekdir) : Z :=
  match d with Beg => p | Cur => Z.of_nat n + p | End => Z.of_nat n - p end.
Definition text_after (w : list Z) (o : xop) : list Z :=
  match o with
  | XOut o => w ++ bytes_of o
  | XSeek p d => firstn (Z.to_nat (target (length w) p d)) w
  | XStr => w
  end.
Fixpoint final_text (w : list Z) (ops : list xop) : list Z :=
  match ops with [] => w | o :: t => final_text (text_after w o) t end.
(** What the program sees. *)
Fixpoint shows (w : list Z) (ops : list xop) : list shown :=
  match ops with
  | [] => []
  | o :: t => (match o with XStr => Text (map Some w) | _ => Nothing end) :: shows (text_after w o) t
  end.
(** Seeks from the beginning or the position, to a place in the text before
    the position; texts below 2^31 bytes. *)
Fixpoint within (w : list Z) (ops : list xop) : Prop :=
  match ops with
  | [] => True
  | o :: t =>
      match o with
      | XOut o => Z.of_nat (length w + length (bytes_of o)) + 2 <= 2 ^ 31
      | XSeek p d => d <> End /\ 0 <= target (length w) p d <= Z.of_nat (length w)
      | XStr => True
      end /\ within (text_after w o) t
  end.

(** [v] is a string with the text [t] that is not the stream's own buffer. *)
Definition block_of (p : ptr) : option nat := match p with Some (b, _) => Some b | None => None end.
Definition another_string (s : ost) (v : mb) (t : list Z) : Prop :=
  msize v = Z.of_nat (length t) /\ load_n (s_heap s) (mptr v) (msize v) = Ok (map Some t) /\
  (t = [] \/ block_of (mptr v) <> block_of (mptr (s_buf s))).
