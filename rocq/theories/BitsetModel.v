(** * BitsetModel: bitset<Size> (ubitset.h, ubitset.cc).

    A bitset is its array of 32 bit words [_bits], each a number below 2^32.
    Failed assertions (bit numbers not below Size, invalid ranges) are
    undefined; a release build would touch another word. *)
From Verif Require Import Base UtilModel.
From Coq Require Import ZArith.
Local Open Scope nat_scope.

Section Size.
  Variable sz : nat.                                   (* Size *)
  (** ubitset.h:43-44 [s_WordBits] is 32; [s_nWords]. *)
  Definition nwords : nat := sz / 32 + (if sz mod 32 =? 0 then 0 else 1).

  (** ubitset.h:47 [BitRef]. *)
  Definition bit_ref (ws : list Z) (n : nat) : outcome Z := if n <? sz then rd ws (n / 32) else UB.
  (** ubitset.h:49 [Mask]: 1 << (n % 32) as a uint32_t. *)
  Definition mask (n : nat) : Z := Z.shiftl 1 (Z.of_nat (n mod 32)).
  (** The complement of a uint32_t. *)
  Definition not32 (v : Z) : Z := (2 ^ 32 - 1 - v)%Z.

  (** ubitset.h:52 [bitset (v)]: the first word is v, the others zero. *)
  Definition bs_of_value (v : Z) : list Z := u32 v :: repeat 0%Z (nwords - 1).
  (** ubitset.h:57 [flip (n)]. *)
  Definition bs_flip (ws : list Z) (n : nat) : outcome (list Z) :=
    br <- bit_ref ws n ;; wr ws (n / 32) (Z.lxor br (mask n)).
  (** ubitset.h:58-60 [reset], [clear], [set] (fill_n: ByteModel.v). *)
  Definition bs_reset_all (ws : list Z) : list Z := repeat 0%Z (length ws).
  Definition bs_set_all (ws : list Z) : list Z := repeat (u32 (-1)) (length ws).
  (** ubitset.h:73 [flip ()], and :61 [operator~] on a copy. *)
  Definition bs_flip_all (ws : list Z) : list Z := map not32 ws.
  (** ubitset.h:64 [test], with operator[] and at (n). *)
  Definition bs_test (ws : list Z) (n : nat) : outcome bool :=
    br <- bit_ref ws n ;; Ok (negb (Z.land br (mask n) =? 0)%Z).
  (** ubitset.h:75-81 [set (n, val)], and :91 [reset (n)]. *)
  Definition bs_set (ws : list Z) (n : nat) (val : bool) : outcome (list Z) :=
    br <- bit_ref ws n ;;
    let bon := Z.lor br (mask n) in let boff := Z.land br (not32 (mask n)) in
    wr ws (n / 32) (if val then bon else boff).
  (** The assertions of the ranges [first, last): ubitset.h:85-86,103-104; the
      mask of uutility.h:24 needs a width of 1 to 32. *)
  Definition range_ok (first last : nat) : bool :=
    (first <? last) && (last - first <=? 32) && (first / 32 =? last / 32).
  Definition bit_mask (n : nat) : Z := Z.shiftr (2 ^ 32 - 1) (32 - Z.of_nat n).
  (** ubitset.h:83-89 [set (first, last, v)]. *)
  Definition bs_set_range (ws : list Z) (first last : nat) (v : Z) : outcome (list Z) :=
    if negb (range_ok first last) || negb (Z.land v (bit_mask (last - first)) =? v)%Z then UB else
    br <- bit_ref ws first ;;
    wr ws (first / 32) (Z.lor br (u32 (Z.shiftl v (Z.of_nat (first mod 32))))).
  (** ubitset.h:101-106 [at (first, last)]. *)
  Definition bs_at_range (ws : list Z) (first last : nat) : outcome Z :=
    if negb (range_ok first last) then UB else
    br <- bit_ref ws first ;; Ok (Z.land (Z.shiftr br (Z.of_nat (first mod 32))) (bit_mask (last - first))).
  (** ubitset.h:71 [to_value]. *)
  Definition bs_to_value (ws : list Z) : outcome Z := rd ws 0.
  (** ubitset.h:107-109 [any], [none], [count]. *)
  Fixpoint or_all (sum : Z) (ws : list Z) : Z := match ws with [] => sum | w :: t => or_all (Z.lor sum w) t end.
  Definition bs_any (ws : list Z) : bool := negb (or_all 0 ws =? 0)%Z.
  Definition bs_none (ws : list Z) : bool := negb (bs_any ws).
  Fixpoint pop_all (sum : Z) (ws : list Z) : Z := match ws with [] => sum | w :: t => pop_all (u64 (sum + popcount32 w)) t end.
  Definition bs_count (ws : list Z) : Z := pop_all 0 ws.
  (** ualgo.h [equal (first1, last1, first2)]. *)
  Fixpoint equal_words (a b : list Z) : outcome bool :=
    match a, b with
    | [], _ => Ok true
    | _, [] => UB
    | x :: s, y :: t => if (x =? y)%Z then equal_words s t else Ok false
    end.
  (** ubitset.h:110-111 [operator==]. *)
  Definition bs_eq (a b : list Z) : outcome bool :=
    if nwords =? 1 then x <- rd a 0 ;; y <- rd b 0 ;; Ok (x =? y)%Z else equal_words a b.
  (** ualgo.h [transform] with two inputs, over all of [a]. *)
  Fixpoint zip (f : Z -> Z -> Z) (a b : list Z) : outcome (list Z) :=
    match a, b with
    | [], _ => Ok []
    | _, [] => UB
    | x :: s, y :: t => r <- zip f s t ;; Ok (f x y :: r)
    end.
  (** ubitset.h:112-123 the binary operators, plain and assigning. *)
  Definition bs_and (a b : list Z) : outcome (list Z) := zip Z.land a b.
  Definition bs_or (a b : list Z) : outcome (list Z) := zip Z.lor a b.
  Definition bs_xor (a b : list Z) : outcome (list Z) := zip Z.lxor a b.

  (** ** Text.  [buf] is the string's characters, [pos] the index of the iterator. *)
  (** The values of b in for (b = 1; b; b <<= 1) for uint32_t. *)
  Definition bit_values : list Z := map (fun k => Z.shiftl 1 (Z.of_nat k)) (seq 0 32).
  (** ubitset.cc:16-17 *)
  Fixpoint to_text_word (w : Z) (bs : list Z) (buf : list Z) (pos : nat) : outcome (list Z * nat) :=
    match bs with
    | [] => Ok (buf, pos)
    | b :: t =>
        match pos with
        | O => Ok (buf, pos)
        | S p => buf <- wr buf p (if (Z.land w b =? 0)%Z then 48%Z else 49%Z) ;; to_text_word w t buf p
        end
    end.
  (** ubitset.cc:12-18 [convert_to_bitstring]. *)
  Fixpoint to_text (ws : list Z) (buf : list Z) (pos : nat) : outcome (list Z * nat) :=
    match ws with
    | [] => Ok (buf, pos)
    | w :: t => match pos with O => Ok (buf, pos) | _ => ' (buf, pos) <- to_text_word w bit_values buf pos ;; to_text t buf pos end
    end.
  (** ubitset.h:93-98 [to_string]. *)
  Definition bs_to_string (ws : list Z) : outcome (list Z) :=
    ' (buf, _) <- to_text ws (repeat 48%Z sz) sz ;; Ok buf.
  (** ubitset.cc:25-30 *)
  Fixpoint of_text_word (w : Z) (bs : list Z) (buf : list Z) (pos : nat) : outcome (Z * nat) :=
    match bs with
    | [] => Ok (w, pos)
    | b :: t =>
        match pos with
        | O => of_text_word (Z.land w (not32 b)) t buf pos
        | S p => c <- rd buf p ;;
                 of_text_word (if (c =? 48)%Z then Z.land w (not32 b) else Z.lor w b) t buf p
        end
    end.
  (** ubitset.cc:21-32 [convert_from_bitstring] over the old words. *)
  Fixpoint of_text (ws : list Z) (buf : list Z) (pos : nat) : outcome (list Z * nat) :=
    match ws with
    | [] => Ok ([], pos)
    | w :: t => ' (w, pos) <- of_text_word w bit_values buf pos ;; ' (r, pos) <- of_text t buf pos ;; Ok (w :: r, pos)
    end.
  (** ubitset.h:56 [bitset (buf)]: [old] is what the uninitialised array holds. *)
  Definition bs_of_string (old : list Z) (buf : list Z) : outcome (list Z) :=
    ' (r, _) <- of_text old buf (length buf) ;; Ok r.

  (** ** Histories over several bitsets of this size *)
  Inductive bop : Type :=
  | BValue (i : nat) (v : Z)            (* b_i = bitset (v) *)
  | BSet (i n : nat) (v : bool)
  | BFlip (i n : nat)
  | BResetAll (i : nat)
  | BSetAll (i : nat)
  | BFlipAll (i : nat)
  | BNot (i j : nat)                    (* b_i = ~b_j *)
  | BAnd (i j k : nat)                  (* b_i = b_j & b_k; b_i &= b_k when j = i *)
  | BOr (i j k : nat)
  | BXor (i j k : nat)
  | BString (i : nat) (buf : list Z).   (* b_i = bitset (buf) *)
  Definition bstate := list (list Z).
  Definition bs_upd (s : bstate) (i : nat) (m : list Z -> outcome (list Z)) : outcome bstate :=
    b <- rd s i ;; b <- m b ;; wr s i b.
  Definition bstep (s : bstate) (o : bop) : outcome bstate :=
    match o with
    | BValue i v => bs_upd s i (fun _ => Ok (bs_of_value v))
    | BSet i n v => bs_upd s i (fun b => bs_set b n v)
    | BFlip i n => bs_upd s i (fun b => bs_flip b n)
    | BResetAll i => bs_upd s i (fun b => Ok (bs_reset_all b))
    | BSetAll i => bs_upd s i (fun b => Ok (bs_set_all b))
    | BFlipAll i => bs_upd s i (fun b => Ok (bs_flip_all b))
    | BNot i j => x <- rd s j ;; bs_upd s i (fun _ => Ok (bs_flip_all x))
    | BAnd i j k => x <- rd s j ;; y <- rd s k ;; bs_upd s i (fun _ => bs_and x y)
    | BOr i j k => x <- rd s j ;; y <- rd s k ;; bs_upd s i (fun _ => bs_or x y)
    | BXor i j k => x <- rd s j ;; y <- rd s k ;; bs_upd s i (fun _ => bs_xor x y)
    | BString i buf => bs_upd s i (fun old => bs_of_string old buf)
    end.
  Fixpoint brun (s : bstate) (ops : list bop) : outcome bstate :=
    match ops with [] => Ok s | o :: t => s <- bstep s o ;; brun s t end.
End Size.
