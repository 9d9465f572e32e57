(** * Utf8IterModel: moving utf8in iterators about, and the UTF-8 and value
    iterators over the binary streams. *)
From Coq Require Import ZArith.
From Verif Require Import Base UtilModel Utf8Model StreamModel IsIterModel.
Local Open Scope Z_scope.

(** utf8in (s.begin()) moved on by [i] characters: ustring.h:181-183, utf8.h:106, 114. *)
Definition utf8_at (l : list Z) (i : nat) : outcome (nat * Z) :=
  it <- utf8_read (l ++ [0]) 0 ;; utf8_skip (l ++ [0]) it i.
(** utf8.h:140-146 [b - a]. *)
Definition utf8_minus (l : list Z) (b a : nat * Z) : outcome Z :=
  utf8_dist (l ++ [0]) (fst a) (fst b) (S (S (length l))).

Section Streams.
  Variable dbg : bool.
  (** utf8.h:132-133 over istream_iterator<utf8subchar_t> (mistream.h:277-278). *)
  Fixpoint us_tail (n : nat) (i : iter Z) (v : Z) : io istream (iter Z * Z) :=
    match n with
    | O => ret (i, v)
    | S k =>
        i' <~ bi_Read dbg 1 i ;;
        if it_val i' =? 0 then ret (i', v)
        else v' <~ lift (shl6 v (it_val i')) ;; us_tail k i' v'
    end.
  (** utf8.h:126-134 [Read]. *)
  Definition us_Read (i : iter Z) : io istream (iter Z * Z) :=
    n <~ lift (seq_bytes (it_val i)) ;;
    us_tail (Z.to_nat (n - 1)) i (Z.land (it_val i) (Z.shiftr 255 n)).
  (** mistream.h:281-285 [utf8in (is)]. *)
  Definition us_new : io istream (iter Z * Z) := i <~ bi_new dbg 1 ;; us_Read i.
  (** utf8istream_iterator (istream_iterator_for_utf8()): mistream.h:135, utf8.h:106. *)
  Definition us_end : io istream (iter Z * Z) := us_Read (it_end Z 0).
  (** utf8.h:112, 114. *)
  Definition us_next (it : iter Z * Z) : io istream (iter Z * Z) := i <~ bi_Read dbg 1 (fst it) ;; us_Read i.
  Fixpoint us_skip (n : nat) (it : iter Z * Z) : io istream (iter Z * Z) :=
    match n with O => ret it | S k => it' <~ us_next it ;; us_skip k it' end.
  (** ualgobase.h:77-83 [copy (utf8in (is), utf8istream_iterator(...), back_inserter)];
      utf8.h:116 compares the stream iterators (mistream.h:148). *)
  Fixpoint us_copy (fuel : nat) (it last : iter Z * Z) : io istream (list Z) :=
    match fuel with
    | O => fun _ => NoFuel
    | S f =>
        fun s => if it_eq istream Z ipos s (fst it) (fst last) then Ok (s, Val [])
                 else (it' <~ us_next it ;; r <~ us_copy f it' last ;; ret (snd it :: r)) s
    end.
  Definition us_all (fuel : nat) : io istream (list Z) :=
    first <~ us_new ;; last <~ us_end ;; us_copy fuel first last.

  (** mostream.h:122-126: copy (first, last, ostream_iterator<T> (os)) for an
      integral type of [w] bytes: operator= writes a value (mostream.h:213-224,
      229-240), the other operations do nothing. *)
  Fixpoint oi_copy (w : nat) (l : list Z) : io ostream unit :=
    match l with
    | [] => ret tt
    | v :: t => _ <~ iwrite dbg w v ;; oi_copy w t
    end.
  (** mostream.h:137-145 [utf8out (os)], utf8.h:180-193: a character is written
      byte by byte through ostream_iterator<utf8subchar_t>. *)
  Fixpoint uo_copy (l : list Z) : io ostream unit :=
    match l with
    | [] => ret tt
    | v :: t => bs <~ lift (utf8_out v) ;; _ <~ oi_copy 1 bs ;; uo_copy t
    end.
End Streams.
