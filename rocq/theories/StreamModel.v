(** * StreamModel: the binary memory streams istream and ostream.

    The stream state survives an exception, so an operation returns the new
    state and either a value or what was thrown.  streamsize and uoff_t are
    size_t (utypes.h:68-71).  Bounds checking is on (config.h.in:19).  [dbg]
    says whether the asserts of the library are compiled in; a failing assert
    is [UB].  Simplified: a buffer's bytes are determined (0..255). *)
From Verif Require Import Base UtilModel.
From Coq Require Import ZArith.
Local Open Scope Z_scope.

Inductive res (A : Type) : Type := Val (a : A) | Thrown (x : exn).
Arguments Val {A} a.
Arguments Thrown {A} x.
Definition io (S A : Type) : Type := S -> outcome (S * res A).
Definition ret {S A} (a : A) : io S A := fun s => Ok (s, Val a).
Definition throw {S A} (x : exn) : io S A := fun s => Ok (s, Thrown x).
Definition undefined {S A} : io S A := fun _ => UB.
Definition iobind {S A B} (m : io S A) (k : A -> io S B) : io S B :=
  fun s => ' (s', r) <- m s ;;
           match r with Val a => k a s' | Thrown x => Ok (s', Thrown x) end.
Notation "x <~ m ;; k" := (iobind m (fun x => k))
  (at level 61, m at next level, right associativity).
(** An operation on something else than the stream. *)
Definition lift {S A} (m : outcome A) : io S A :=
  fun s => match m with Ok a => Ok (s, Val a) | UB => UB | Exn x => Ok (s, Thrown x) | NoFuel => NoFuel end.

(** uios.h:59-68. *)
Definition failbit : Z := 4.
Definition eofbit : Z := 2.
Definition allbadbits : Z := 7.
(** mistream.cc:17-21 [overrun]: the bits it sets; [rem] is passed as uint32_t. *)
Definition overrun_bits (rem : Z) : Z := if u32 rem =? 0 then Z.lor failbit eofbit else failbit.

Inductive dir : Type := Beg | Cur | End.        (* uios.h:53-57 seekdir *)

(** ** istream *)
(** mistream.h:63-106 (cmemlink data, [_pos]), uios.h:95-96 ([_state], [_exceptions]). *)
Record istream := mkis { idata : list Z; ipos : Z; istate : Z; iexc : Z }.
(** mistream.h:66 with uios.h:79. *)
Definition is_open (data : list Z) : istream := mkis data 0 0 allbadbits.
Definition isize (s : istream) : Z := Z.of_nat (length (idata s)).
Definition i_remaining (s : istream) : Z := u64 (isize s - ipos s).         (* mistream.h:79 *)
Definition i_set_pos (p : Z) : io istream unit :=
  fun s => Ok (mkis (idata s) (u64 p) (istate s) (iexc s), Val tt).
(** mistream.cc:17-21 with uios.h:92 [set_and_throw]. *)
Definition i_overrun (rem : Z) : io istream unit :=
  fun s =>
    let b := overrun_bits rem in
    let s' := mkis (idata s) (ipos s) (Z.lor (istate s) b) (iexc s) in
    if Z.land (iexc s) b =? 0 then Ok (s', Val tt) else Ok (s', Thrown stream_bounds).
(** mistream.h:172-178. *)
Definition i_verify (n : Z) : io istream bool :=
  fun s =>
    let rem := i_remaining s in
    if n <=? rem then Ok (s, Val true) else (_ <~ i_overrun rem ;; ret false) s.
(** mistream.h:181-190. *)
Definition i_seek (p : Z) : io istream unit :=
  fun s => if isize s <? p then i_overrun (isize s) s else i_set_pos p s.
(** mistream.h:199-206: the off_t argument is converted to uoff_t. *)
Definition i_seekg (p : Z) (d : dir) : io istream unit :=
  fun s => match d with
           | Beg => i_seek (u64 p) s
           | Cur => i_seek (u64 (ipos s + p)) s
           | End => i_seek (u64 (isize s - p)) s
           end.
Definition i_skip (n : Z) : io istream unit := fun s => i_seek (u64 (ipos s + n)) s.   (* mistream.h:209-212 *)
Definition i_ungetc : io istream unit := fun s => i_seek (u64 (ipos s - 1)) s.         (* mistream.h:101 *)
(** mistream.h:215-218. *)
Definition i_align (g : Z) : io istream unit :=
  fun s => match align (ipos s) g with Ok p => i_seek p s | _ => UB end.
(** memcpy from ipos(): nothing is read if [n] is 0. *)
Definition i_raw (n : Z) : io istream (list Z) :=
  fun s =>
    if n =? 0 then Ok (s, Val [])
    else if (0 <=? ipos s) && (0 <=? n) && (ipos s + n <=? isize s)
    then Ok (s, Val (slice (idata s) (Z.to_nat (ipos s)) (Z.to_nat (ipos s + n))))
    else UB.
(** mistream.h:236-246: [None] if nothing was transferred and nothing thrown. *)
Definition i_read (n : Z) : io istream (option (list Z)) :=
  ok <~ i_verify n ;;
  if ok then
    l <~ i_raw n ;; (fun s => (_ <~ i_set_pos (ipos s + n) ;; ret (Some l)) s)
  else ret None.
(** mistream.cc:68-72. *)
Definition i_underflow (n : Z) : io istream Z :=
  _ <~ i_verify n ;; (fun s => Ok (s, Val (i_remaining s))).
(** mistream.cc:59-66. *)
Definition i_readsome (n : Z) : io istream (list Z) :=
  _ <~ (fun s => if i_remaining s <? n then (_ <~ i_underflow n ;; ret tt) s else Ok (s, Val tt)) ;;
  (fun s =>
     let ntr := Z.min n (i_remaining s) in
     (r <~ i_read ntr ;; ret (match r with Some l => l | None => [] end)) s).
(** ualgo.h:28-34 [find] of a zero in [p, end()): the number of bytes before it, if any. *)
Fixpoint find_zero (l : list Z) : option nat :=
  match l with
  | [] => None
  | x :: t => if x =? 0 then Some O else match find_zero t with Some k => Some (S k) | None => None end
  end.
(** mistream.cc:48-56: the text assigned.  Starting after the end, the search
    runs away. *)
Definition i_read_strz : io istream (list Z) :=
  fun s =>
    if isize s <? ipos s then UB else
    let strl := match find_zero (skipn (Z.to_nat (ipos s)) (idata s)) with Some k => Z.of_nat k | None => 0 end in
    (l <~ i_raw strl ;; (fun s => (_ <~ i_set_pos (ipos s + strl + 1) ;; ret l) s)) s.

Section Asserts.
  Variable dbg : bool.
  (** mistream.h:222-233 for an integral type of [w] bytes; its alignment is
      its size (strmsize.h:33-38); x86 reads misaligned values. *)
  Definition iread (w : nat) : io istream (option Z) :=
    fun s =>
      if dbg && negb (ipos s mod Z.of_nat w =? 0) then UB else
      (r <~ i_read (Z.of_nat w) ;; ret (match r with Some l => Some (of_bytes_le l) | None => None end)) s.
End Asserts.

(** ** ostream *)
(** mostream.h: memlink data, [_pos]; [oaddr] is the address of the buffer. *)
Record ostream := mkos { odata : list Z; oaddr : Z; opos : Z; ostate : Z; oexc : Z }.
Definition os_open (data : list Z) (addr : Z) : ostream := mkos data addr 0 0 allbadbits.
Definition osize (s : ostream) : Z := Z.of_nat (length (odata s)).
Definition o_remaining (s : ostream) : Z := u64 (osize s - opos s).         (* mostream.h:64 *)
Definition o_set_pos (p : Z) : io ostream unit :=
  fun s => Ok (mkos (odata s) (oaddr s) (u64 p) (ostate s) (oexc s), Val tt).
Definition o_overrun (rem : Z) : io ostream unit :=
  fun s =>
    let b := overrun_bits rem in
    let s' := mkos (odata s) (oaddr s) (opos s) (Z.lor (ostate s) b) (oexc s) in
    if Z.land (oexc s) b =? 0 then Ok (s', Val tt) else Ok (s', Thrown stream_bounds).
(** mostream.h:150-156. *)
Definition o_verify (n : Z) : io ostream bool :=
  fun s =>
    let rem := o_remaining s in
    if n <=? rem then Ok (s, Val true) else (_ <~ o_overrun rem ;; ret false) s.
(** mostream.h:159-168. *)
Definition o_seek (p : Z) : io ostream unit :=
  fun s => if osize s <? p then o_overrun (osize s) s else o_set_pos p s.
(** mostream.h:177-184. *)
Definition o_seekp (p : Z) (d : dir) : io ostream unit :=
  fun s => match d with
           | Beg => o_seek (u64 p) s
           | Cur => o_seek (u64 (opos s + p)) s
           | End => o_seek (u64 (osize s - p)) s
           end.
Definition o_skip (n : Z) : io ostream unit := fun s => o_seek (u64 (opos s + n)) s.   (* mostream.h:187-190 *)
(** memcpy or memset to ipos(). *)
Definition o_raw (l : list Z) : io ostream unit :=
  fun s =>
    match l with
    | [] => Ok (s, Val tt)
    | _ => if (0 <=? opos s) && (opos s + Z.of_nat (length l) <=? osize s)
           then Ok (mkos (firstn (Z.to_nat (opos s)) (odata s) ++ l ++ skipn (Z.to_nat (opos s) + length l) (odata s))
                      (oaddr s) (opos s) (ostate s) (oexc s), Val tt)
           else UB
    end.
Definition o_put (l : list Z) : io ostream unit :=
  _ <~ o_raw l ;; (fun s => o_set_pos (opos s + Z.of_nat (length l)) s).
(** mostream.h:193-203; the result says whether anything was written. *)
Definition o_write (l : list Z) : io ostream bool :=
  ok <~ o_verify (Z.of_nat (length l)) ;;
  if ok then (_ <~ o_put l ;; ret true) else ret false.
(** mistream.cc:77-91: by the address, not by the position. *)
Definition o_align (g : Z) : io ostream unit :=
  fun s =>
    let ip := u64 (oaddr s + opos s) in
    let ipa := Z.land (u64 (ip + (g - 1))) (u64 (Z.lnot (g - 1))) in
    let nb := u64 (ipa - ip) in
    (ok <~ o_verify nb ;; if ok then o_put (repeat 0 (Z.to_nat nb)) else ret tt) s.
(** mistream.cc:94-97; [l] is the C string without its terminator. *)
Definition o_write_strz (l : list Z) : io ostream bool := o_write (l ++ [0]).

Section OAsserts.
  Variable dbg : bool.
  (** mostream.h:213-224. *)
  Definition iwrite (w : nat) (v : Z) : io ostream bool :=
    fun s =>
      if dbg && negb (opos s mod Z.of_nat w =? 0) then UB else o_write (bytes_le w v) s.
End OAsserts.

(** ** Clients *)
Inductive iop : Type :=
| IRead (n : Z) | IGet (w : nat) | IReadsome (n : Z)
| ISeek (p : Z) | ISeekg (p : Z) (d : dir) | ISkip (n : Z) | IUngetc | IAlign (g : Z) | IVerify (n : Z).
Inductive oop : Type :=
| OWrite (l : list Z) | OPut (w : nat) (v : Z) | OWriteStrz (l : list Z)
| OSeek (p : Z) | OSeekp (p : Z) (d : dir) | OSkip (n : Z) | OAlign (g : Z) | OVerify (n : Z).

(** What the caller sees: bytes delivered, or an exception. *)
Definition given (r : option (list Z)) : list Z := match r with Some l => l | None => [] end.
Definition i_step (o : iop) : io istream (list Z) :=
  match o with
  | IRead n => r <~ i_read n ;; ret (given r)
  | IGet w => r <~ iread false w ;; ret (match r with Some v => bytes_le w v | None => [] end)
  | IReadsome n => i_readsome n
  | ISeek p => _ <~ i_seek p ;; ret []
  | ISeekg p d => _ <~ i_seekg p d ;; ret []
  | ISkip n => _ <~ i_skip n ;; ret []
  | IUngetc => _ <~ i_ungetc ;; ret []
  | IAlign g => _ <~ i_align g ;; ret []
  | IVerify n => _ <~ i_verify n ;; ret []
  end.
Definition o_step (o : oop) : io ostream unit :=
  match o with
  | OWrite l => _ <~ o_write l ;; ret tt
  | OPut w v => _ <~ iwrite false w v ;; ret tt
  | OWriteStrz l => _ <~ o_write_strz l ;; ret tt
  | OSeek p => o_seek p
  | OSeekp p d => o_seekp p d
  | OSkip n => o_skip n
  | OAlign g => o_align g
  | OVerify n => _ <~ o_verify n ;; ret tt
  end.
(** A client that catches every exception and goes on; all the states and
    results are recorded. *)
Fixpoint io_run {S O R} (step : O -> io S R) (s : S) (ops : list O) : outcome (list (S * res R)) :=
  match ops with
  | [] => Ok []
  | o :: t => ' (s', r) <- step o s ;; rs <- io_run step s' t ;; Ok ((s', r) :: rs)
  end.
