(** * StringFindModel: comparing and searching strings.

    Here a string is its text, a list of bytes 0..255, with the terminating
    zero behind it (C36); [s_at] is undefined outside.  Positions are offsets
    from begin(). *)
From Verif Require Import Base UtilModel.
From Coq Require Import ZArith.
Local Open Scope Z_scope.

Definition npos : Z := 2 ^ 31 - 1.                         (* ustring.h:57 *)
Definition ssize (s : list Z) : Z := Z.of_nat (length s).
(** ustring.h:90 [at]. *)
Definition s_at (s : list Z) (i : Z) : outcome Z :=
  if 0 <=? i then rd (s ++ [0]) (Z.to_nat i) else UB.
(** ustring.h:92 [iat]. *)
Definition iat (s : list Z) (pos : Z) : Z := Z.min pos (ssize s).
(** Conversion of a 64 bit value to int. *)
Definition to_int (x : Z) : Z := let y := u32 x in if y <? 2 ^ 31 then y else y - 2 ^ 32.

(** memcmp(3) of two readable regions: the sign is that of the first
    difference as unsigned bytes. *)
Fixpoint memcmp (a b : list Z) : Z :=
  match a, b with
  | x :: s, y :: t => if x =? y then memcmp s t else x - y
  | _, _ => 0
  end.
(** ustring.cc:113-120 [compare]; uutility.h sign. *)
Definition str_compare (a b : list Z) : Z :=
  let rvbylen := Z.sgn (to_int (ssize a - ssize b)) in
  let n := Z.to_nat (Z.min (ssize a) (ssize b)) in
  let rv := memcmp (firstn n a) (firstn n b) in
  if rv =? 0 then rvbylen else rv.
(** ustring.h:144 [operator==], cmemlink.h:61-62. *)
Definition str_eq (a b : list Z) : bool := (ssize a =? ssize b) && (memcmp a b =? 0).
Definition str_ne (a b : list Z) : bool := negb (str_eq a b).             (* ustring.h:148 *)
Definition str_lt (a b : list Z) : bool := str_compare a b <? 0.          (* ustring.h:152 *)
Definition str_gt (a b : list Z) : bool := str_lt b a.                    (* uutility.h:195-197 *)
Definition str_le (a b : list Z) : bool := negb (str_lt b a).             (* uutility.h:200-202 *)
Definition str_ge (a b : list Z) : bool := negb (str_lt a b).             (* uutility.h:205-207 *)

(** ualgo.h [find] of a byte in [i, end()): its position, or end(). *)
Fixpoint find_from (s : list Z) (i : Z) (c : Z) (fuel : nat) : outcome Z :=
  if i <? ssize s then
    match fuel with
    | O => NoFuel
    | S k => x <- s_at s i ;; if x =? c then Ok i else find_from s (i + 1) c k
    end
  else Ok (ssize s).
Definition ufind (s : list Z) (i c : Z) : outcome Z := find_from s i c (S (length s)).
(** ustring.cc:239-243. *)
Definition str_find_char (s : list Z) (c pos : Z) : outcome Z :=
  f <- ufind s (iat s pos) c ;; Ok (if f <? ssize s then f else npos).
(** ustring.cc:252-253: the previous position of [c] below [k], or -1. *)
Fixpoint prev_occ (p : list Z) (c : Z) (k : nat) : outcome Z :=
  match k with
  | O => Ok (-1)
  | S j => x <- s_at p (Z.of_nat j) ;; if x =? c then Ok (Z.of_nat j) else prev_occ p c j
  end.
(** memcmp (s + o, p, p.size()) == 0 *)
Definition match_at (s p : list Z) (o : Z) : outcome bool :=
  if (0 <=? o) && (o + ssize p <=? ssize s + 1)
  then Ok (memcmp (firstn (length p) (skipn (Z.to_nat o) (s ++ [0]))) p =? 0) else UB.
(** ustring.cc:256-258. *)
Fixpoint find_loop (s p : list Z) (endi c skip i : Z) (fuel : nat) : outcome Z :=
  match fuel with
  | O => NoFuel
  | S k =>
      if i <? ssize s then
        j <- ufind s i c ;;
        if j <? ssize s then
          b <- match_at s p (j - endi) ;;
          if b then Ok (j - endi) else find_loop s p endi c skip (j + skip) k
        else Ok npos
      else Ok npos
  end.
(** ustring.cc:246-260. *)
Definition str_find (s p : list Z) (pos : Z) : outcome Z :=
  if (ssize p =? 0) || (u64 (ssize s - pos) <? ssize p) then Ok npos else
  let endi := ssize p - 1 in
  c <- s_at p endi ;;
  lastpos <- prev_occ p c (length p - 1) ;;
  find_loop s p endi c (endi - lastpos) (iat s pos + endi) (S (length s)).
(** ustring.cc:285-291, 294-300 [find_first_of], [find_first_not_of]. *)
Fixpoint first_loop (s set : list Z) (want : bool) (i : Z) (fuel : nat) : outcome Z :=
  if i <? ssize s then
    match fuel with
    | O => NoFuel
    | S k =>
        x <- s_at s i ;; f <- str_find_char set x 0 ;;
        if Bool.eqb (negb (f =? npos)) want then Ok i else first_loop s set want (i + 1) k
    end
  else Ok npos.
Definition find_first_of (s set : list Z) (pos : Z) : outcome Z := first_loop s set true (Z.min pos (ssize s)) (S (length s)).
Definition find_first_not_of (s set : list Z) (pos : Z) : outcome Z := first_loop s set false (Z.min pos (ssize s)) (S (length s)).

(** ustring.cc:263-269: [i] is an int. *)
Fixpoint rfind_loop (s : list Z) (c i : Z) (fuel : nat) : outcome Z :=
  if 0 <=? i then
    match fuel with
    | O => NoFuel
    | S k => x <- s_at s i ;; if x =? c then Ok i else rfind_loop s c (i - 1) k
    end
  else Ok npos.
Definition start_back (s : list Z) (pos : Z) : Z := to_int (Z.min pos (u64 (ssize s - 1))).
Definition str_rfind_char (s : list Z) (c pos : Z) : outcome Z :=
  let i := start_back s pos in rfind_loop s c i (S (Z.to_nat (i + 1))).
(** ustring.cc:303-309, 312-318 [find_last_of], [find_last_not_of]. *)
Fixpoint last_loop (s set : list Z) (want : bool) (i : Z) (fuel : nat) : outcome Z :=
  if 0 <=? i then
    match fuel with
    | O => NoFuel
    | S k =>
        x <- s_at s i ;; f <- str_find_char set x 0 ;;
        if Bool.eqb (negb (f =? npos)) want then Ok i else last_loop s set want (i - 1) k
    end
  else Ok npos.
Definition find_last_of (s set : list Z) (pos : Z) : outcome Z :=
  let i := start_back s pos in last_loop s set true i (S (Z.to_nat (i + 1))).
Definition find_last_not_of (s set : list Z) (pos : Z) : outcome Z :=
  let i := start_back s pos in last_loop s set false i (S (Z.to_nat (i + 1))).

(** ustring.cc:278-280: compares backwards from the ends; how far it got. *)
Fixpoint back_match (s p : list Z) (d : Z) (k : nat) (i : Z) : outcome Z :=
  match k with
  | O => Ok i
  | S j =>
      x <- s_at p (ssize p - 1 - i) ;; y <- s_at s (d - i) ;;
      if x =? y then back_match s p d j (i + 1) else Ok i
  end.
(** ustring.cc:277-281: the outer loop. *)
Fixpoint rfind_str_loop (s p : list Z) (d i : Z) (fuel : nat) : outcome Z :=
  match fuel with
  | O => NoFuel
  | S k =>
      let sp := ssize p - 1 in
      if (sp <? d) && (i <? ssize p) then
        i <- back_match s p d (length p) 0 ;; rfind_str_loop s p (d - 1) i k
      else Ok (if sp <? d then d + 2 - ssize p else npos)
  end.
(** ustring.cc:272-282. *)
Definition str_rfind (s p : list Z) (pos : Z) : outcome Z :=
  rfind_str_loop s p (iat s pos - 1) 0 (S (S (length s))).

(** The overloads that take one character make a string of it, those that take
    a pointer and a length link a string to the memory there: ustring.h:192
    [find], 196 [rfind], 198, 200 [find_first_of], 202, 204
    [find_first_not_of], 206, 208 [find_last_of], 210, 212 [find_last_not_of].
    [mem] is what the pointer points to.  Making the one-character string can
    throw bad_alloc (C115), which is not repeated here. *)
Definition linked (mem : list Z) (count : nat) : outcome (list Z) :=
  if (count <=? length mem)%nat then Ok (firstn count mem) else UB.
Definition find_n (s mem : list Z) (pos : Z) (count : nat) : outcome Z := p <- linked mem count ;; str_find s p pos.
Definition find_first_of_n (s mem : list Z) (pos : Z) (count : nat) : outcome Z := p <- linked mem count ;; find_first_of s p pos.
Definition find_first_not_of_n (s mem : list Z) (pos : Z) (count : nat) : outcome Z := p <- linked mem count ;; find_first_not_of s p pos.
Definition find_last_of_n (s mem : list Z) (pos : Z) (count : nat) : outcome Z := p <- linked mem count ;; find_last_of s p pos.
Definition find_last_not_of_n (s mem : list Z) (pos : Z) (count : nat) : outcome Z := p <- linked mem count ;; find_last_not_of s p pos.
Definition find_first_of_c (s : list Z) (c pos : Z) : outcome Z := find_first_of s [c] pos.
Definition find_first_not_of_c (s : list Z) (c pos : Z) : outcome Z := find_first_not_of s [c] pos.
Definition find_last_of_c (s : list Z) (c pos : Z) : outcome Z := find_last_of s [c] pos.
Definition find_last_not_of_c (s : list Z) (c pos : Z) : outcome Z := find_last_not_of s [c] pos.
