(** * BitsetSpec: bitsets as lists of bits, lowest first. *)
From Coq Require Import List ZArith Bool.
From Verif Require Import Base BitsetModel.
Import ListNotations.

Section Size.
  Variable sz : nat.
  (** Bits 0 .. sz-1 of a number. *)
  Definition bits_of_value (v : Z) : list bool := map (fun k => (k <? 32) && Z.testbit v (Z.of_nat k))%nat (seq 0 sz).
  Definition set_bit (l : list bool) (n : nat) (v : bool) : list bool := firstn n l ++ v :: skipn (S n) l.
  Definition map2 (f : bool -> bool -> bool) (a b : list bool) : list bool := map (fun p => f (fst p) (snd p)) (combine a b).
  (** A text is read from its end; every character but '0' is a one, bits the
      text does not reach are zero. *)
  Definition bits_of_text (buf : list Z) : list bool :=
    map (fun k => (k <? length buf)%nat && negb (nth k (rev buf) 48 =? 48)%Z) (seq 0 sz).
  Definition text_of_bits (l : list bool) : list Z := rev (map (fun b : bool => if b then 49%Z else 48%Z) l).

  Definition bget (s : list (list bool)) (i : nat) : list bool := nth i s [].
  Definition bput (s : list (list bool)) (i : nat) (l : list bool) : list (list bool) := firstn i s ++ l :: skipn (S i) s.
  Definition bstep_spec (s : list (list bool)) (o : bop) : list (list bool) :=
    match o with
    | BValue i v => bput s i (bits_of_value v)
    | BSet i n v => bput s i (set_bit (bget s i) n v)
    | BFlip i n => bput s i (set_bit (bget s i) n (negb (nth n (bget s i) false)))
    | BResetAll i => bput s i (repeat false sz)
    | BSetAll i => bput s i (repeat true sz)
    | BFlipAll i => bput s i (map negb (bget s i))
    | BNot i j => bput s i (map negb (bget s j))
    | BAnd i j k => bput s i (map2 andb (bget s j) (bget s k))
    | BOr i j k => bput s i (map2 orb (bget s j) (bget s k))
    | BXor i j k => bput s i (map2 xorb (bget s j) (bget s k))
    | BString i buf => bput s i (bits_of_text buf)
    end.
  Definition bspec_run (s : list (list bool)) (ops : list bop) : list (list bool) := fold_left bstep_spec ops s.
  (** What a caller may do with [k] bitsets. *)
  Definition bop_pre (k : nat) (o : bop) : Prop :=
    match o with
    | BValue i v => i < k /\ (0 <= v < 2 ^ 32)%Z
    | BSet i n _ | BFlip i n => i < k /\ n < sz
    | BResetAll i | BSetAll i | BFlipAll i | BString i _ => i < k
    | BNot i j => i < k /\ j < k
    | BAnd i j l | BOr i j l | BXor i j l => i < k /\ j < k /\ l < k
    end.
  (** The operations that write the unused bits of the last word, if it has
      unused bits. *)
  Definition tidy (o : bop) : Prop :=
    match o with
    | BSetAll _ | BFlipAll _ | BNot _ _ => sz mod 32 = 0
    | BValue _ v => sz < 32 -> (v < 2 ^ Z.of_nat sz)%Z
    | BString _ buf => length buf <= sz \/ sz mod 32 = 0
    | _ => True
    end.
  Definition ones_in (l : list bool) : Z := Z.of_nat (length (filter (fun b => b) l)).
End Size.
