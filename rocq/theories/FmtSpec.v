(** * FmtSpec: what a printf format means (C11 7.21.6.1). *)
From Verif Require Import Base.
From Coq Require Import ZArith.
Local Open Scope Z_scope.

Record conv := mkconv {
  c_minus : bool; c_plus : bool; c_space : bool; c_hash : bool; c_zero : bool;   (* flags *)
  c_width : option Z; c_prec : option Z;
  c_len : list Z;        (* length modifier *)
  c_type : Z             (* conversion *) }.

Definition is_flag (c : Z) : bool := existsb (Z.eqb c) [45; 43; 32; 35; 48].       (* - + space # 0 *)
Definition is_digit (c : Z) : bool := (48 <=? c) && (c <=? 57).
Definition is_length (c : Z) : bool := existsb (Z.eqb c) [104; 108; 76; 106; 122; 116].   (* h l L j z t *)
Definition is_conv (c : Z) : bool :=
  existsb (Z.eqb c) [100; 105; 111; 117; 120; 88; 102; 70; 101; 69; 103; 71; 97; 65; 99; 115; 112; 110].

Fixpoint span (p : Z -> bool) (l : list Z) : list Z * list Z :=
  match l with
  | [] => ([], [])
  | c :: t => if p c then (let '(a, b) := span p t in (c :: a, b)) else ([], l)
  end.
(** The value of a sequence of decimal digits, the most significant first. *)
Definition number (l : list Z) : Z := fold_left (fun a c => 10 * a + (c - 48)) l 0.

(** A format consisting of one conversion specification and nothing else. *)
Definition parse (l : list Z) : option conv :=
  match l with
  | 37 :: l =>
      let '(fl, l) := span is_flag l in
      let '(w, l) := span is_digit l in
      let '(p, l) := match l with
                     | 46 :: l => let '(d, l) := span is_digit l in (Some (number d), l)
                     | _ => (None, l)
                     end in
      let '(m, l) := span is_length l in
      match l with
      | [c] => if is_conv c then
                 Some (mkconv (existsb (Z.eqb 45) fl) (existsb (Z.eqb 43) fl) (existsb (Z.eqb 32) fl)
                              (existsb (Z.eqb 35) fl) (existsb (Z.eqb 48) fl)
                              (match w with [] => None | _ => Some (number w) end) p m c)
               else None
      | _ => None
      end
  | _ => None
  end.

(** [l] is the decimal notation of [n]. *)
Definition decimal (l : list Z) (n : Z) : Prop :=
  l <> [] /\ Forall (fun c => is_digit c = true) l /\ number l = n /\ (hd 0 l = 48 -> n = 0 /\ l = [48]).
(** [n] reads the same in both directions. *)
Definition palindrome (n : Z) : Prop := exists l, decimal l n /\ rev l = l.

(** The conversion the settings of a stream stand for. *)
From Verif Require Import FmtModel.
Definition length_of (t : ntype) : list Z :=
  match t with
  | TShort | TUShort => [104] | TLong | TULong | TDouble => [108] | TLLong | TULLong => [108; 108]
  | TLDouble => [76] | TInt | TUInt | TFloat => []
  end.
Definition conversion (s : fmtst) (t : ntype) : Z :=
  match t with
  | TFloat | TDouble | TLDouble => if has (w_flags s) f_scientific then 69 else 102                   (* E f *)
  | _ => if has (w_flags s) f_hex then (if has (w_flags s) f_uppercase then 88 else 120)              (* X x *)
         else if has (w_flags s) f_oct then 111                                                       (* o *)
         else match t with TUShort | TUInt | TULong | TULLong => 117 | _ => 100 end                   (* u d *)
  end.
Definition intended (s : fmtst) (t : ntype) : conv :=
  mkconv (has (w_flags s) f_left) (is_integer t && has (w_flags s) f_showpos) false
         (is_integer t && has (w_flags s) f_showbase)
         (negb (w_width s =? 0) && (w_fill s =? 48))
         (if w_width s =? 0 then None else Some (w_width s))
         (if is_integer t then None else Some (w_prec s))
         (length_of t) (conversion s t).
(** The values the members can have. *)
Definition settings (s : fmtst) : Prop := 0 <= w_width s < 2 ^ 16 /\ 0 <= w_prec s < 2 ^ 8.
