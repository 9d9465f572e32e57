(** * IsIterModel: istream_iterator.

    The iterator keeps a pointer to its stream, or none, and the value last
    read; the stream is the state the operations work on.  All iterators here
    are over one stream. *)
From Verif Require Import Base UtilModel StreamModel IstrModel.
From Coq Require Import ZArith.
Local Open Scope Z_scope.

Section Iterator.
  Variables S T : Type.
  (** remaining(), underflow(), eof() and pos(), seek() of the stream. *)
  Variable remaining : S -> Z.
  Variable underflow : Z -> io S Z.
  Variable pos : S -> Z.
  Variable seek : Z -> io S unit.
  (** mistream.h:110-113 [required_stream_size], 115-118 [stream_at_eof]. *)
  Variable required : Z.
  Variable at_eof : S -> bool.
  (** stream_size_of (v) (strmsize.h:33-38), constant for the types used here. *)
  Variable size : Z.
  (** "stream >> v", given the value v has. *)
  Variable extract : T -> io S T.

  (** mistream.h:164-166. *)
  Record iter := mkiter { it_live : bool; it_val : T }.
  (** mistream.h:151-163 [Read]. *)
  Definition it_Read (i : iter) : io S iter :=
    if it_live i then
      short <~ (fun s => if remaining s <? required then (r <~ underflow required ;; ret (r <? required)) s else Ok (s, Val false)) ;;
      if short then ret (mkiter false (it_val i))
      else v <~ extract (it_val i) ;; fun s => Ok (s, Val (mkiter (negb (at_eof s)) v))
    else ret i.
  (** mistream.h:135-136: the end iterator, and one on the stream. *)
  Definition it_end (v0 : T) : iter := mkiter false v0.
  Definition it_new (v0 : T) : io S iter := it_Read (mkiter true v0).
  Definition it_incr (i : iter) : io S iter := it_Read i.                         (* mistream.h:140 *)
  (** mistream.h:141, 145; a null pointer is [UB]. *)
  Definition it_back (n : Z) (i : iter) : io S iter :=
    if it_live i then fun s => (_ <~ seek (u64 (pos s - u64 (n * size))) ;; it_Read i) s else undefined.
  Definition it_decr (i : iter) : io S iter := it_back 2 i.
  Definition it_minus (n : Z) (i : iter) : io S iter := it_back (u64 (n + 1)) i.
  (** mistream.h:144. *)
  Fixpoint it_plus (n : nat) (i : iter) : io S iter :=
    match n with O => ret i | Datatypes.S n' => i' <~ it_incr i ;; it_plus n' i' end.
  (** mistream.h:147: distance (i.pos, pos) / size; both positions are of the
      one stream. *)
  Definition it_diff (s : S) (i j : iter) : outcome Z :=
    if it_live i && it_live j then Ok (Z.quot (pos s - pos s) size) else UB.
  (** mistream.h:148. *)
  Definition it_eq (s : S) (i j : iter) : bool :=
    (negb (it_live i) && negb (it_live j)) || (it_live i && it_live j && (pos s =? pos s)).
  (** ualgobase.h:77-83 [copy (first, last, back_inserter)]: what is inserted,
      unless the stream throws. *)
  Fixpoint it_copy (fuel : nat) (i last : iter) : io S (list T) :=
    match fuel with
    | O => fun _ => NoFuel
    | Datatypes.S fuel' =>
        fun s => if it_eq s i last then Ok (s, Val [])
                 else (i' <~ it_incr i ;; r <~ it_copy fuel' i' last ;; ret (it_val i :: r)) s
    end.
  (** copy (istream_iterator<T>(is), istream_iterator<T>(), back_inserter (v)). *)
  Definition it_all (fuel : nat) (v0 : T) : io S (list T) := i <~ it_new v0 ;; it_copy fuel i (it_end v0).
End Iterator.
Arguments it_live {T} i.
Arguments it_val {T} i.
Arguments mkiter {T} it_live it_val.

(** istream_iterator<string, istringstream>; [uf] is the stream's underflow.
    operator>> is iread (sistream.cc:136-169), the size of the string is not used. *)
Definition wi_all (uf : Z -> io ist Z) (fuel : nat) : io ist (list (list Z)) :=
  it_all ist (list Z) t_remaining uf t_pos 1 (fun s => negb (Z.land (t_state s) eofbit =? 0)) (fun _ => iread_string uf fuel) fuel [].
(** istream_iterator<long, istringstream>: sistream.cc:89-108. *)
Definition ni_all (uf : Z -> io ist Z) (cast : Z -> Z) (fuel : nat) : io ist (list Z) :=
  it_all ist Z t_remaining uf t_pos 1 (fun s => negb (Z.land (t_state s) eofbit =? 0)) (fun _ => read_number uf cast fuel) fuel 0.

(** istream_iterator<T> for an integral type of [w] bytes (mistream.h:222-233);
    a value that is not read keeps the old one. *)
Definition b_extract (dbg : bool) (w : nat) (old : Z) : io istream Z :=
  o <~ iread dbg w ;; ret (match o with Some v => v | None => old end).
Definition bi_Read (dbg : bool) (w : nat) : iter Z -> io istream (iter Z) :=
  it_Read istream Z i_remaining i_underflow (Z.of_nat w) (fun _ => false) (b_extract dbg w).
Definition bi_new (dbg : bool) (w : nat) : io istream (iter Z) := bi_Read dbg w (mkiter true 0).
Definition bi_all (dbg : bool) (w fuel : nat) : io istream (list Z) :=
  it_all istream Z i_remaining i_underflow ipos (Z.of_nat w) (fun _ => false) (b_extract dbg w) fuel 0.
Definition bi_plus (dbg : bool) (w : nat) : nat -> iter Z -> io istream (iter Z) :=
  it_plus istream Z i_remaining i_underflow (Z.of_nat w) (fun _ => false) (b_extract dbg w).
Definition bi_minus (dbg : bool) (w : nat) : Z -> iter Z -> io istream (iter Z) :=
  it_minus istream Z i_remaining i_underflow ipos i_seek (Z.of_nat w) (fun _ => false) (Z.of_nat w) (b_extract dbg w).
Definition bi_decr (dbg : bool) (w : nat) : iter Z -> io istream (iter Z) :=
  it_decr istream Z i_remaining i_underflow ipos i_seek (Z.of_nat w) (fun _ => false) (Z.of_nat w) (b_extract dbg w).
Definition bi_diff (w : nat) (s : istream) (i j : iter Z) : outcome Z := it_diff istream Z ipos (Z.of_nat w) s i j.
