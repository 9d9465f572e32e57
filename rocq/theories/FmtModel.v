(** * FmtModel: the printf format ostringstream generates for a number.

    Characters are their codes.  The local array [char fmt[16]] of iformat is
    the bound on what may be written: one more character is undefined. *)
From Verif Require Import Base.
From Coq Require Import ZArith.
Local Open Scope Z_scope.

(** sostream.h:84-88, uios.h:17-36: width is uint16_t, precision uint8_t. *)
Record fmtst := mkfs { w_flags : Z; w_width : Z; w_prec : Z; w_fill : Z }.
Definition f_showbase := 2. Definition f_showpos := 8. Definition f_uppercase := 64.      (* uios.h:18-35 *)
Definition f_oct := 256. Definition f_hex := 512. Definition f_scientific := 2048. Definition f_left := 4096.
Definition has (fl b : Z) : bool := negb (Z.land fl b =? 0).

(** The types with a format: sostream.h:91-109. *)
Inductive ntype : Type := TShort | TUShort | TInt | TUInt | TLong | TULong | TLLong | TULLong | TFloat | TDouble | TLDouble.
Definition typestring (t : ntype) : list Z :=
  match t with
  | TShort => [104; 100] | TUShort => [104; 117]                (* hd hu *)
  | TInt => [100] | TUInt => [117]                              (* d u *)
  | TLong => [108; 100] | TULong => [108; 117]                  (* ld lu *)
  | TLLong => [108; 108; 100] | TULLong => [108; 108; 117]      (* lld llu *)
  | TFloat => [102] | TDouble => [108; 102] | TLDouble => [76; 102]   (* f lf Lf *)
  end.
Definition is_integer (t : ntype) : bool := match t with TFloat | TDouble | TLDouble => false | _ => true end.

(** "*fmt++ = c" into the 16 characters; [l] is what is there. *)
Definition put (c : Z) (l : list Z) : outcome (list Z) := if (length l <? 16)%nat then Ok (l ++ [c]) else UB.
Definition put_if (b : bool) (c : Z) (l : list Z) : outcome (list Z) := if b then put c l else Ok l.
Fixpoint put_all (cs : list Z) (l : list Z) : outcome (list Z) :=
  match cs with [] => Ok l | c :: t => l <- put c l ;; put_all t l end.
(** sostream.cc:65-71 [encode_dec]; the fuel is enough for 32 bits. *)
Fixpoint encode_loop (fuel : nat) (n : Z) (l : list Z) : outcome (list Z) :=
  match fuel with
  | O => NoFuel
  | S fuel' => l <- put (48 + n mod 10) l ;; if n / 10 =? 0 then Ok l else encode_loop fuel' (n / 10) l
  end.
Definition encode_dec (n : Z) (l : list Z) : outcome (list Z) := encode_loop 10 n l.
(** "fmt[-1] = c". *)
Definition set_last (c : Z) (l : list Z) : list Z := removelast l ++ [c].

(** sostream.cc:73-103 [fmtstring] with sostream.h:111-117 [iformat]; the
    result is the format without its terminator. *)
Definition fmtstring (s : fmtst) (t : ntype) : outcome (list Z) :=
  l <- put 37 [] ;;
  l <- (if w_width s =? 0 then Ok l
        else l <- put_if (w_fill s =? 48) 48 l ;; encode_dec (w_width s) l) ;;
  l <- put_if (has (w_flags s) f_left) 45 l ;;
  l <- (if is_integer t then
          l <- put_if (has (w_flags s) f_showpos) 43 l ;; put_if (has (w_flags s) f_showbase) 35 l
        else l <- put 46 l ;; encode_dec (w_prec s) l) ;;
  l <- put_all (typestring t) l ;;
  let l :=
    if is_integer t then
      if has (w_flags s) f_hex then set_last (if has (w_flags s) f_uppercase then 88 else 120) l
      else if has (w_flags s) f_oct then set_last 111 l else l
    else if has (w_flags s) f_scientific then set_last 69 l else l in
  l' <- put 0 l ;; Ok l.
