(** * XferModel: moving data between memory streams, moving data inside an
    ostream, and the stream functors.

    Two streams are a pair of states.  Simplified: the buffers of the two
    streams do not overlap. *)
From Verif Require Import Base UtilModel StoreModel StreamModel SerialModel BitsetModel.
From Coq Require Import ZArith.
Local Open Scope Z_scope.

Definition on_o {S A} (m : io ostream A) : io (ostream * S) A :=
  fun p => ' (o, r) <- m (fst p) ;; Ok ((o, snd p), r).
Definition on_i {S A} (m : io istream A) : io (S * istream) A :=
  fun p => ' (i, r) <- m (snd p) ;; Ok ((fst p, i), r).

(** mistream.cc:36-39 [istream::write (ostream& os)], with mostream.h:193-203:
    the bounds of [os] are checked before the bytes of the source are read. *)
Definition is_write_os : io (ostream * istream) unit :=
  fun p =>
    (ok <~ on_o (o_verify (i_remaining (snd p))) ;;
     if ok then l <~ on_i (i_raw (i_remaining (snd p))) ;; on_o (o_put l) else ret tt) p.
(** mistream.cc:100-104 [ostream::read (istream& is)]. *)
Definition os_read_is : io (ostream * istream) unit :=
  _ <~ is_write_os ;; (fun p => on_i (i_seek (isize (snd p))) p).
(** mostream.h:75 [ostream::write (ostream& os)]: [src] into the stream. *)
Definition os_write_os (src : ostream) : io ostream unit :=
  fun s =>
    (ok <~ o_verify (opos src) ;;
     if ok then (if (0 <=? opos src) && (opos src <=? osize src) then o_put (firstn (Z.to_nat (opos src)) (odata src)) else undefined)
     else ret tt) s.
(** mistream.cc:26-30 [istream (const ostream& source)]; the exception mask is
    that of a new stream (uios.h:79). *)
Definition is_of_os (src : ostream) : istream := is_open (firstn (Z.to_nat (opos src)) (odata src)).

(** mistream.cc:113-117 [ostream::insert] with memlink.h:75-82.  [start] and
    [n] are offsets.  Outside the asserted range the three pointers given to
    rotate are out of order. *)
Definition o_insert (e : env) (start n : Z) : io ostream unit :=
  fun s =>
    let s1 := mkos (odata s) (oaddr s) (u64 (opos s + n)) (ostate s) (oexc s) in
    if (0 <=? start) && (0 <=? n) && (start + n <=? osize s) then
      d <- rotate_cells e 1 (oaddr s) (odata s) (Z.to_nat start) (Z.to_nat (osize s - n)) (Z.to_nat (osize s)) ;;
      Ok (mkos d (oaddr s) (opos s1) (ostate s) (oexc s), Val tt)
    else UB.
(** mistream.cc:120-124 [ostream::erase] with memlink.h:86-93. *)
Definition o_erase (e : env) (start n : Z) : io ostream unit :=
  fun s =>
    let s1 := mkos (odata s) (oaddr s) (u64 (opos s - n)) (ostate s) (oexc s) in
    if (0 <=? start) && (0 <=? n) && (start + n <=? osize s) then
      d <- rotate_cells e 1 (oaddr s) (odata s) (Z.to_nat start) (Z.to_nat (start + n)) (Z.to_nat (osize s)) ;;
      Ok (mkos d (oaddr s) (opos s1) (ostate s) (oexc s), Val tt)
    else UB.

(** ubitset.h:124-128: a bitset is written as its words; the size is that of
    the words. *)
Definition c_bitset (dbg : bool) (sz : nat) : codec (list Z) :=
  let c := c_array false (nwords sz) (c_int dbg 4) in
  mkcodec (cwrite c) (cread c) (fun _ => 4 * Z.of_nat (nwords sz)) 4 (cdflt c).

(** uiosfunc.h:19-30,36-39 [ios::align] and [ios::talign]: [os << ios::align(g)],
    [is >> ios::align(g)], and the size it gives. *)
Definition f_align_out (g : Z) : io ostream unit := o_align g.
Definition f_align_in (g : Z) : io istream unit := i_align g.
Definition f_align_size (g : Z) : Z := u64 (g - 1).
(** uiosfunc.h:47-57 [ios::skip]. *)
Definition f_skip_out (n : Z) : io ostream unit := o_skip n.
Definition f_skip_in (n : Z) : io istream unit := i_skip n.
Definition f_skip_size (n : Z) : Z := n.
