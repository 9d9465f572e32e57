(** * PosSpec: a file as a user sees it: bytes, and an offset that every
    transfer moves. *)
From Verif Require Import Base FileModel PosModel OStrModel OStrSpec.
From Coq Require Import ZArith.
Local Open Scope Z_scope.

Definition size (d : list Z) : Z := Z.of_nat (length d).
Definition byte (d : list Z) (i : Z) : Z := if i <? 0 then 0 else nth (Z.to_nat i) d 0.
(** [d'] is [d] with the bytes from [p] on replaced by [l]; bytes between the
    old end and [p] are zero. *)
Definition overwritten (d : list Z) (p : Z) (l : list Z) (d' : list Z) : Prop :=
  size d' = (if (size l =? 0) then size d else Z.max (size d) (p + size l)) /\
  forall i, byte d' i = if (p <=? i) && (i <? p + size l) then byte l (i - p) else byte d i.

(** What a seek to [n] asks for: from the beginning, from the position [p], or
    from the end of the file. *)
Definition seek_to (p size n : Z) (d : seekdir) : Z :=
  match d with Sbeg => n | Scur => p + n | Send => size + n end.

(** The bytes of [l] are those of the file from [p] on. *)
Definition found_at (d : list Z) (p : Z) (l : list Z) : Prop :=
  forall i, 0 <= i < size l -> p + i < size d /\ byte l i = byte d (p + i).
(** One call on a file: before, call, answer, after.  A call that failed with an
    exception may have moved some bytes. *)
Inductive access : list Z * Z -> rop -> rres -> list Z * Z -> Prop :=
| acc_write d p l k d' x : (k <= length l)%nat -> overwritten d p (firstn k l) d' -> x = GotNum (Z.of_nat k) \/ x = Failed ->
    access (d, p) (RaWrite l) x (d', p + Z.of_nat k)
| acc_read d p n l x : (length l <= n)%nat -> found_at d p l -> x = GotBytes l \/ x = Failed ->
    access (d, p) (RaRead n) x (d, p + size l)
| acc_readsome d p n l x : (length l <= n)%nat -> found_at d p l -> x = GotBytes l \/ x = Failed ->
    access (d, p) (RaReadSome n) x (d, p + size l)
| acc_seek d p n w : 0 <= seek_to p (size d) n w -> access (d, p) (RaSeek n w) (GotNum (seek_to p (size d) n w)) (d, seek_to p (size d) n w)
| acc_seek_bad d p n w x : seek_to p (size d) n w < 0 -> x = GotNum (-1) \/ x = Failed -> access (d, p) (RaSeek n w) x (d, p)
| acc_tell d p : access (d, p) RaTell (GotNum p) (d, p)
| acc_size d p : access (d, p) RaSize (GotNum (size d)) (d, p)
| acc_clear d p : access (d, p) RaClear (GotNum 0) (d, p).
Inductive accesses : list Z * Z -> list rop -> list rres -> list Z * Z -> Prop :=
| accs_nil x : accesses x [] [] x
| accs_cons x o r y os rs z : access x o r y -> accesses y os rs z -> accesses x (o :: os) (r :: rs) z.

(** Unbuffered writing: what a history of output and seeks does to a file. *)
Inductive edits : list Z * Z -> list pop -> list (option Z) -> list Z * Z -> Prop :=
| ed_nil x : edits x [] [] x
| ed_io d p o d' os rs y : overwritten d p (bytes_of o) d' -> edits (d', p + size (bytes_of o)) os rs y -> edits (d, p) (PoIo o :: os) (None :: rs) y
| ed_seek d p n w os rs y : edits (d, seek_to p (size d) n w) os rs y -> edits (d, p) (PoSeek n w :: os) (None :: rs) y
| ed_tell d p os rs y : edits (d, p) os rs y -> edits (d, p) (PoTell :: os) (Some p :: rs) y.
(** All the seeks go to offsets that exist. *)
Fixpoint seeks_ok (d : Z) (p : Z) (os : list pop) : Prop :=
  match os with
  | [] => True
  | PoIo o :: t => let n := size (bytes_of o) in seeks_ok (if n =? 0 then d else Z.max d (p + n)) (p + n) t
  | PoSeek n w :: t => 0 <= seek_to p d n w /\ seeks_ok d (seek_to p d n w) t
  | PoTell :: t => seeks_ok d p t
  end.
