(** * SerialSpec: values, and what a round trip through a stream means. *)
From Coq Require Import List ZArith Bool.
From Verif Require Import Base StreamModel StreamSpec SerialModel SerialTypes.
Local Open Scope Z_scope.

(** The values a C++ program can have: integers in range, strings shorter than
    2^31 bytes, containers with fewer than 2^32 elements. *)
Fixpoint valid (t : ty) : val t -> Prop :=
  match t return val t -> Prop with
  | TInt w => fun v => 0 <= v < 256 ^ Z.of_nat w
  | TStr => fun l => Z.of_nat (length l) < 2 ^ 31
  | TVec t => fun l => Forall (valid t) l /\ Z.of_nat (length l) < 2 ^ 32
  | TPair a b => fun p => valid a (fst p) /\ valid b (snd p)
  | TArr _ n t => fun l => Forall (valid t) l /\ length l = n
  end.
(** A bound on the memory a value takes. *)
Fixpoint footprint (t : ty) : val t -> Z :=
  match t return val t -> Z with
  | TInt w => fun _ => 8
  | TStr => fun l => 16 + Z.of_nat (length l)
  | TVec t => fun l => 16 + fold_right (fun x n => footprint t x + n) 0 l
  | TPair a b => fun p => 16 + footprint a (fst p) + footprint b (snd p)
  | TArr _ _ t => fun l => fold_right (fun x n => footprint t x + n) 0 l
  end.
(** Everything of a stream outside [from, from+n) and its flags are as before. *)
Definition only_wrote (s s' : ostream) (n : Z) : Prop :=
  opos s' = opos s + n /\ oaddr s' = oaddr s /\ ostate s' = ostate s /\ oexc s' = oexc s /\
  length (odata s') = length (odata s) /\
  firstn (Z.to_nat (opos s)) (odata s') = firstn (Z.to_nat (opos s)) (odata s) /\
  skipn (Z.to_nat (opos s + n)) (odata s') = skipn (Z.to_nat (opos s + n)) (odata s).
(** [data] is a buffer that has, at [p], the [n] bytes which [s'] has there. *)
Definition same_bytes (s' : ostream) (p n : Z) (data : list Z) : Prop :=
  Z.of_nat (length data) < 2 ^ 63 /\ p + n <= Z.of_nat (length data) /\
  firstn (Z.to_nat n) (skipn (Z.to_nat p) data) = firstn (Z.to_nat n) (skipn (Z.to_nat p) (odata s')).
(** The round trip of a value [x] at the position of [s]: writing produces [n]
    bytes; reading them over any old object, with any flags and exception
    mask, from any buffer that has them at the same position, gives [x] and
    stops just behind them. *)
Definition round_trip {T} (c : codec T) (x : T) (s : ostream) (n : Z) : Prop :=
  exists s', cwrite c x s = Ok (s', Val tt) /\ only_wrote s s' n /\
  forall old data st exc, same_bytes s' (opos s) n data ->
    cread c old (mkis data (opos s) st exc) = Ok (mkis data (opos s + n) st exc, Val x).

(** The types for which the library's own bookkeeping is right.  The alignment
    of an integer is its width, of a string 1, of a tuple that of its elements,
    of everything else 4.  A type is [whole] if the size of every value is a
    multiple of the alignment: all are, but for some pairs without a half of
    alignment 4, and some arrays.  Integers and strings are storable; tuples
    are, of all storable types; containers and arrays, of all but 8 byte
    integers (and tuples of them); and pairs are, if both halves have alignments
    of at most 4 and the half with the greater alignment is whole. *)
Fixpoint align_of (t : ty) : Z :=
  match t with TInt w => Z.of_nat w | TStr => 1 | TArr true _ t => align_of t | _ => 4 end.
Fixpoint wide (t : ty) : bool := match t with TInt w => Nat.eqb w 8 | TArr true _ t => wide t | _ => false end.
Definition is_int (t : ty) : bool := match t with TInt _ => true | _ => false end.
Fixpoint whole (t : ty) : bool :=
  match t with
  | TArr true _ t => whole t
  | TArr false n (TInt w) => (Z.of_nat n * Z.of_nat w) mod 4 =? 0
  | TArr false _ t => (align_of t =? 4) && whole t
  | TPair a b => let m := Z.max (align_of a) (align_of b) in (m =? 4) || (is_int a && is_int b && (m =? 2))
  | _ => true
  end.
Fixpoint storable (t : ty) : bool :=
  match t with
  | TInt w => Nat.eqb w 1 || Nat.eqb w 2 || Nat.eqb w 4 || Nat.eqb w 8
  | TStr => true
  | TVec t => storable t && negb (wide t)
  | TArr tup _ t => storable t && (tup || negb (wide t))
  | TPair a b => storable a && storable b && negb (wide a) && negb (wide b) &&
      ((align_of a =? align_of b) || ((align_of b <? align_of a) && whole a) || ((align_of a <? align_of b) && whole b))
  end.

(** Integers of the four widths, and strings. *)
Definition flat (t : ty) : bool :=
  match t with TInt w => Nat.eqb w 1 || Nat.eqb w 2 || Nat.eqb w 4 || Nat.eqb w 8 | TStr => true | _ => false end.
(** The alignment a buffer and a position need: 8 for 8 byte integers, else 4. *)
Definition unit_of (t : ty) : Z := if wide t then 8 else 4.
(** All elements take the same space (if the compiler can tell, the size of
    one is multiplied). *)
Definition same_sizes {T} (c : codec T) (l : list T) : Prop := forall x y, In x l -> In y l -> csize c x = csize c y.
