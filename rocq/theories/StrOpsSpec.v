(** * StrOpsSpec: C strings and numerals. *)
From Verif Require Import Base StringFindModel StrOpsModel.
From Coq Require Import ZArith.
Local Open Scope Z_scope.

(** [c] points to the text [t]: bytes other than zero, and a zero. *)
Definition points_to (c : cstr) (t : list Z) : Prop :=
  exists a rest, c = Some (a, t ++ 0 :: rest) /\ Forall (fun x => x <> 0) t.
(** The part of [s] of [len] bytes from [start] on, cut off at the end. *)
Definition part_of (s : list Z) (start len : Z) : list Z :=
  firstn (Z.to_nat (Z.min len (ssize s))) (skipn (Z.to_nat (Z.min start (ssize s))) s).

(** [c] is the digit of value [d]: 0..9, then letters of either case. *)
Definition digit_is (c d : Z) : Prop :=
  (0 <= d <= 9 /\ c = 48 + d) \/ (10 <= d <= 35 /\ (c = 97 + (d - 10) \/ c = 65 + (d - 10))).
(** [ds] is a notation of [n] in the given base. *)
Definition numeral (base : Z) (ds : list Z) (n : Z) : Prop :=
  ds <> [] /\ exists vs, Forall2 digit_is ds vs /\ Forall (fun d => d < base) vs /\ n = fold_left (fun a d => base * a + d) vs 0.
Definition is_white (c : Z) : Prop := c = 32 \/ 9 <= c <= 13.
(** No letter or digit at the start. *)
Definition no_digit (s : list Z) : Prop := match s with [] => True | c :: _ => forall d, ~ digit_is c d end.
(** [s] begins with a number: white space, a sign or none, digits; [used] characters. *)
Definition number_at (s : list Z) (base n : Z) (used : Z) : Prop :=
  exists sp sg ds rest m, s = sp ++ sg ++ ds ++ rest /\ Forall is_white sp /\ numeral base ds m /\ no_digit rest /\
    (sg = [] /\ n = m \/ sg = [43] /\ n = m \/ sg = [45] /\ n = - m) /\ used = Z.of_nat (length (sp ++ sg ++ ds)).
