(** * TraitModel: type traits and numeric_limits (gcc, x86-64 Linux, C++14,
    HAVE_THREE_CHAR_TYPES, HAVE_LONG_LONG). *)
From Coq Require Import List Arith Bool ZArith.
Import ListNotations.

(** The fundamental types the headers name. *)
Inductive fund := Bool_ | Char_ | SChar | UChar | Short | UShort | Int | UInt | Long | ULong
  | LLong | ULLong | WChar | Float | Double | LDouble | Void.
Scheme Equality for fund.
(** C++ types.  [c], [v]: const and volatile at the top; references, functions
    and arrays have none of their own (qualifying an array qualifies its
    elements, qualifying a reference or function does nothing).  Functions with
    a cv or ref qualifier appear only behind member pointers ([fconst]). *)
Inductive cty :=
| F (f : fund) (c v : bool)
| Class (n : nat) (c v : bool)
| Enum (n : nat) (c v : bool)
| Ptr (t : cty) (c v : bool)
| MemObj (cls : nat) (t : cty) (c v : bool)
| MemFun (cls : nat) (fconst : bool) (n : nat) (c v : bool)
| LRef (t : cty)
| RRef (t : cty)
| ArrU (t : cty)
| Arr (t : cty) (n : nat)
| Func (n : nat).

(** The language, not the library: what [T const], [T volatile] mean, and
    whether a type matches the patterns [T const], [T volatile]. *)
Fixpoint qual (qc qv : bool) (t : cty) : cty :=
  match t with
  | F f c v => F f (c || qc) (v || qv)
  | Class n c v => Class n (c || qc) (v || qv)
  | Enum n c v => Enum n (c || qc) (v || qv)
  | Ptr t c v => Ptr t (c || qc) (v || qv)
  | MemObj k t c v => MemObj k t (c || qc) (v || qv)
  | MemFun k q n c v => MemFun k q n (c || qc) (v || qv)
  | LRef t => LRef t | RRef t => RRef t | Func n => Func n
  | ArrU t => ArrU (qual qc qv t) | Arr t n => Arr (qual qc qv t) n
  end.
Fixpoint cv_of (t : cty) : bool * bool :=
  match t with
  | F _ c v | Class _ c v | Enum _ c v | Ptr _ c v | MemObj _ _ c v | MemFun _ _ _ c v => (c, v)
  | LRef _ | RRef _ | Func _ => (false, false)
  | ArrU t | Arr t _ => cv_of t
  end.
Fixpoint unqual (uc uv : bool) (t : cty) : cty :=
  let k (x : bool) (u : bool) := x && negb u in
  match t with
  | F f c v => F f (k c uc) (k v uv)
  | Class n c v => Class n (k c uc) (k v uv)
  | Enum n c v => Enum n (k c uc) (k v uv)
  | Ptr t c v => Ptr t (k c uc) (k v uv)
  | MemObj m t c v => MemObj m t (k c uc) (k v uv)
  | MemFun m q n c v => MemFun m q n (k c uc) (k v uv)
  | LRef t => LRef t | RRef t => RRef t | Func n => Func n
  | ArrU t => ArrU (unqual uc uv t) | Arr t n => Arr (unqual uc uv t) n
  end.

(** uttraits.h:51-53, 55-57, 59 [remove_const], [remove_volatile], [remove_cv]. *)
Definition remove_const (t : cty) : cty := if fst (cv_of t) then unqual true false t else t.
Definition remove_volatile (t : cty) : cty := if snd (cv_of t) then unqual false true t else t.
Definition remove_cv (t : cty) : cty := remove_volatile (remove_const t).
(** uttraits.h:62-63, 69-70, 73 [add_const], [add_volatile], [add_cv]. *)
Definition add_const (t : cty) : cty := qual true false t.
Definition add_volatile (t : cty) : cty := qual false true t.
Definition add_cv (t : cty) : cty := add_volatile (add_const t).
(** uttraits.h:76-78 [remove_reference]. *)
Definition remove_reference (t : cty) : cty := match t with LRef u => u | RRef u => u | _ => t end.
(** uttraits.h:81-82 [remove_pointer]: the pattern [T*] is an unqualified pointer. *)
Definition remove_pointer (t : cty) : cty := match t with Ptr u false false => u | _ => t end.
(** uttraits.h:85-86 [add_pointer]; a pointer to a reference does not compile. *)
Definition add_pointer (t : cty) : option cty :=
  match t with Ptr u false false => Some (Ptr u false false) | LRef _ | RRef _ => None | _ => Some (Ptr t false false) end.
(** uttraits.h:89-91, 94-96 [remove_extent], [remove_all_extents]. *)
Definition remove_extent (t : cty) : cty := match t with ArrU u => u | Arr u _ => u | _ => t end.
Fixpoint remove_all_extents (t : cty) : cty := match t with ArrU u => remove_all_extents u | Arr u _ => remove_all_extents u | _ => t end.
(** uttraits.h:106-115, 117-126 [make_signed], [make_unsigned]. *)
Definition make_signed (t : cty) : cty :=
  match t with
  | F Char_ false false => F SChar false false
  | F UChar false false => F SChar false false
  | F UShort false false => F Short false false
  | F UInt false false => F Int false false
  | F ULong false false => F Long false false
  | F ULLong false false => F LLong false false
  | _ => t
  end.
Definition make_unsigned (t : cty) : cty :=
  match t with
  | F Char_ false false => F UChar false false
  | F SChar false false => F UChar false false
  | F Short false false => F UShort false false
  | F Int false false => F UInt false false
  | F Long false false => F ULong false false
  | F LLong false false => F ULLong false false
  | _ => t
  end.

(** uttraits.h:143-180: the lists of specialisations, and the traits. *)
Definition is_f (l : list fund) (t : cty) : bool :=
  match remove_cv t with F f false false => existsb (fund_beq f) l | _ => false end.
Definition is_void : cty -> bool := is_f [Void].
Definition is_integral : cty -> bool :=
  is_f [Char_; SChar; Short; Int; Long; UChar; UShort; UInt; ULong; LLong; ULLong; WChar; Bool_].
Definition is_signed : cty -> bool := is_f [Char_; WChar; Short; Int; Long; LLong].
Definition is_floating_point : cty -> bool := is_f [Float; Double; LDouble].
(** uttraits.h:182-197 [is_pointer], [is_member_pointer], [is_member_function_pointer]
    (whose patterns have no const member functions). *)
Definition is_pointer (t : cty) : bool := match remove_cv t with Ptr _ false false => true | _ => false end.
Definition is_member_pointer (t : cty) : bool :=
  match remove_cv t with MemObj _ _ false false => true | MemFun _ _ _ false false => true | _ => false end.
Definition is_member_function_pointer (t : cty) : bool := match remove_cv t with MemFun _ false _ false false => true | _ => false end.
(** uttraits.h:201-202 [is_unsigned], [is_member_object_pointer]. *)
Definition is_unsigned (t : cty) : bool := negb (is_signed t).
Definition is_member_object_pointer (t : cty) : bool := is_member_pointer t && negb (is_member_function_pointer t).
(** uttraits.h:204-213, 219-243 [is_array], the references, [is_function]. *)
Definition is_array (t : cty) : bool := match t with ArrU _ | Arr _ _ => true | _ => false end.
Definition is_lvalue_reference (t : cty) : bool := match t with LRef _ => true | _ => false end.
Definition is_rvalue_reference (t : cty) : bool := match t with RRef _ => true | _ => false end.
Definition is_reference (t : cty) : bool := is_lvalue_reference t || is_rvalue_reference t.
Definition is_function (t : cty) : bool := match t with Func _ => true | _ => false end.
(** uttraits.h:215-217: the compiler's own answers. *)
Definition is_class (t : cty) : bool := match t with Class _ _ _ => true | _ => false end.
Definition is_enum (t : cty) : bool := match t with Enum _ _ _ => true | _ => false end.
(** uttraits.h:245-246, 255-258. *)
Definition is_object (t : cty) : bool := negb (is_reference t) && negb (is_void t) && negb (is_function t).
Definition is_referenceable (t : cty) : bool := match t with Func _ => true | _ => is_reference t || is_object t end.
Definition is_arithmetic (t : cty) : bool := is_integral t || is_floating_point t.
Definition is_fundamental (t : cty) : bool := is_arithmetic t || is_void t.
Definition is_scalar (t : cty) : bool := is_arithmetic t || is_enum t || is_pointer t || is_member_pointer t.
Definition is_compound (t : cty) : bool := negb (is_fundamental t).
(** uttraits.h:260-268 with the collapsing of references. *)
Definition add_lvalue_reference (t : cty) : cty :=
  if is_referenceable t then match t with LRef u | RRef u => LRef u | _ => LRef t end else t.
Definition add_rvalue_reference (t : cty) : cty :=
  if is_referenceable t then match t with LRef u => LRef u | RRef u => RRef u | _ => RRef t end else t.
(** uttraits.h:276-279 [is_const], [is_volatile]. *)
Definition is_const (t : cty) : bool := fst (cv_of t).
Definition is_volatile (t : cty) : bool := snd (cv_of t).
(** uttraits.h:305-307, 309-311 [rank], [extent]. *)
Fixpoint rank (t : cty) : nat := match t with ArrU u => 1 + rank u | Arr u _ => 1 + rank u | _ => 0 end.
Fixpoint extent (t : cty) (i : nat) : nat :=
  match t with
  | ArrU u => match i with 0 => 0 | S j => extent u j end
  | Arr u n => match i with 0 => n | S j => extent u j end
  | _ => 0
  end.
(** uttraits.h:313-317 [decay]. *)
Definition decay (t : cty) : option cty :=
  let u := remove_reference t in
  if is_array u then Some (Ptr (remove_extent u) false false)
  else if is_function u then add_pointer u
  else Some (remove_cv u).

(** typet.h:31-34 [IsSameType] on these. *)
Fixpoint cty_eqb (a b : cty) : bool :=
  let e := Bool.eqb in
  match a, b with
  | F f c v, F f' c' v' => fund_beq f f' && e c c' && e v v'
  | Class n c v, Class n' c' v' | Enum n c v, Enum n' c' v' => Nat.eqb n n' && e c c' && e v v'
  | Ptr t c v, Ptr t' c' v' => cty_eqb t t' && e c c' && e v v'
  | MemObj k t c v, MemObj k' t' c' v' => Nat.eqb k k' && cty_eqb t t' && e c c' && e v v'
  | MemFun k q n c v, MemFun k' q' n' c' v' => Nat.eqb k k' && e q q' && Nat.eqb n n' && e c c' && e v v'
  | LRef t, LRef t' | RRef t, RRef t' | ArrU t, ArrU t' => cty_eqb t t'
  | Arr t n, Arr t' n' => cty_eqb t t' && Nat.eqb n n'
  | Func n, Func n' => Nat.eqb n n'
  | _, _ => false
  end.

(** traits.h:192-204 [UnConst], [UnVolatile]: like remove_const, but through a
    reference too. *)
Definition UnConst (t : cty) : cty :=
  match t with LRef u => LRef (remove_const u) | RRef u => RRef (remove_const u) | _ => remove_const t end.
Definition UnVolatile (t : cty) : cty :=
  match t with LRef u => LRef (remove_volatile u) | RRef u => RRef (remove_volatile u) | _ => remove_volatile t end.
Definition Unqualified (t : cty) : cty := UnVolatile (UnConst t).          (* traits.h:213-214 *)
(** traits.h:219-220. *)
Definition tt_isConst (t : cty) : bool := match t with LRef u | RRef u => is_const u | _ => is_const t end.
Definition tt_isVolatile (t : cty) : bool := match t with LRef u | RRef u => is_volatile u | _ => is_volatile t end.
(** traits.h:18-21: the lists; 235-247 [isStdUnsignedInt] ... [isStdFloat]: the
    unqualified type, or what it refers to, is in the list. *)
Definition tt_in (l : list fund) (t : cty) : bool :=
  existsb (fun f => cty_eqb (remove_reference (Unqualified t)) (F f false false)) l.
Definition tt_isUnsignedInt : cty -> bool := tt_in [UChar; UShort; UInt; ULong].
Definition tt_isSignedInt : cty -> bool := tt_in [SChar; Short; Int; Long].
Definition tt_isIntegral (t : cty) : bool := tt_isUnsignedInt t || tt_isSignedInt t || tt_in [Bool_; Char_; WChar] t.
Definition tt_isFloat : cty -> bool := tt_in [Float; Double].
(** traits.h:256, 248-249, 257-258 [isSigned], [isArith], [isFundamental]. *)
Definition tt_isSigned (t : cty) : bool := tt_isSignedInt t || tt_isFloat t.
Definition tt_isArith (t : cty) : bool := tt_isIntegral t || tt_isFloat t.
Definition tt_isFundamental (t : cty) : bool := tt_isArith t || cty_eqb t (F Void false false).

(** The values of a type on x86-64 Linux (the language, not the library). *)
Definition bits (f : fund) : Z :=
  match f with
  | Bool_ | Char_ | SChar | UChar => 8 | Short | UShort => 16 | Int | UInt | WChar | Float => 32
  | Long | ULong | LLong | ULLong | Double => 64 | LDouble => 128 | Void => 8
  end.
(** ulimits.h:225-257 [_NUMERIC_LIMITS], 262-279: min, max, is_signed,
    is_integer of the integer types. The C macros CHAR_MIN, ... are
    the compiler's. *)
Record limits := mkl { l_min : Z; l_max : Z; l_signed : bool; l_integer : bool }.
Definition limits_of (f : fund) : option limits :=
  match f with
  | Bool_ => Some (mkl 0 1 false false)
  | Char_ => Some (mkl (-128) 127 true true)
  | Int => Some (mkl (-2147483648) 2147483647 true true)
  | Short => Some (mkl (-32768) 32767 true true)
  | Long => Some (mkl (-9223372036854775808) 9223372036854775807 true true)
  | SChar => Some (mkl (-128) 127 true true)
  | UChar => Some (mkl 0 255 false true)
  | UInt => Some (mkl 0 4294967295 false true)
  | UShort => Some (mkl 0 65535 false true)
  | ULong => Some (mkl 0 18446744073709551615 false true)
  | WChar => Some (mkl 0 2147483647 false true)
  | LLong => Some (mkl (-9223372036854775808) 9223372036854775807 true true)
  | ULLong => Some (mkl 0 18446744073709551615 false true)
  | _ => None
  end%Z.
(** ulimits.h:30-33, 255-256 [digits], [digits10]. *)
Definition l_digits (f : fund) : Z := bits f.
Definition l_digits10 (f : fund) : Z := (bits f * 643 / 2136 + 1)%Z.
(** uutility.h:98-101 [is_negative]. *)
Definition is_negative (f : fund) (x : Z) : bool :=
  match limits_of f with Some l => if l_signed l then Z.ltb x 0 else false | None => false end.
(** uutility.h:113-117 [sign]. *)
Definition sign (f : fund) (x : Z) : Z := ((if Z.ltb 0 x then 1 else 0) - (if is_negative f x then 1 else 0))%Z.
