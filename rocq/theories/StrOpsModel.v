(** * StrOpsModel: the operators of string, string to number conversions. *)
From Verif Require Import Base UtilModel StoreModel VectorModel MemModel StringModel StringFindModel StrFmtModel IstrModel.
From Coq Require Import ZArith.
Local Open Scope Z_scope.

(** ** Comparison with C strings *)
(** A [const char*]: null, or an address and the memory readable from there on. *)
Definition cstr : Type := option (Z * list Z).
(** strlen (3). *)
Fixpoint c_len (l : list Z) : outcome Z :=
  match l with
  | [] => UB
  | c :: t => if c =? 0 then Ok 0 else n <- c_len t ;; Ok (n + 1)
  end.
(** ustring.cc:123-127 [operator== (const char* )]; null is taken for "". *)
Definition eq_c (s : list Z) (c : cstr) : outcome bool :=
  let l := match c with None => [0] | Some (_, l) => l end in
  n <- c_len l ;;
  Ok ((ssize s =? n) && (memcmp s (firstn (length s) l) =? 0)).
(** ustring.h:149 [operator!= (const char* )]. *)
Definition ne_c (s : list Z) (c : cstr) : outcome bool := b <- eq_c s c ;; Ok (negb b).
(** ustring.h:127 [compare (const char* )]; strlen of null is undefined. *)
Definition compare_c (s : list Z) (c : cstr) : outcome Z :=
  match c with
  | None => UB
  | Some (_, l) => n <- c_len l ;; Ok (str_compare s (firstn (Z.to_nat n) l))
  end.
(** ustring.h:153, 156 [operator<], [operator>] with a const char*. *)
Definition lt_c (s : list Z) (c : cstr) : outcome bool := r <- compare_c s c ;; Ok (r <? 0).
Definition gt_c (s : list Z) (c : cstr) : outcome bool := r <- compare_c s c ;; Ok (0 <? r).
(** [s <= p], [s >= p]: string has no such member, and the templates of
    uutility.h:199-207 need operands of one type; what remains is the built-in
    comparison of pointers after the conversion ustring.h:131 of the string. *)
Definition c_addr (c : cstr) : Z := match c with None => 0 | Some (a, _) => a end.
Definition le_c (sa : Z) (c : cstr) : bool := sa <=? c_addr c.
Definition ge_c (sa : Z) (c : cstr) : bool := c_addr c <=? sa.
(** ustring.h:300-307: the operators with the C string on the left. *)
Definition c_eq (c : cstr) (s : list Z) : outcome bool := eq_c s c.
Definition c_ne (c : cstr) (s : list Z) : outcome bool := ne_c s c.
Definition c_lt (c : cstr) (s : list Z) : outcome bool := gt_c s c.
Definition c_gt (c : cstr) (s : list Z) : outcome bool := lt_c s c.
Definition c_le (c : cstr) (sa : Z) : bool := ge_c sa c.
Definition c_ge (c : cstr) (sa : Z) : bool := le_c sa c.
(** ustring.h:146 [operator== (char)], 154 [operator< (char)]. *)
Definition eq_char (s : list Z) (c : Z) : outcome bool :=
  if ssize s =? 1 then x <- s_at s 0 ;; Ok (c =? x) else Ok false.
Definition lt_char (s : list Z) (c : Z) : bool := str_compare s [c] <? 0.

(** ** Comparison of parts, and copies *)
(** ustring.h:125 [compare (start, len, s)]; ustring.cc:115 asserts that the
    range is not negative.  Offsets are computed in 64 bits. *)
Definition part (s : list Z) (f l : Z) : list Z := firstn (Z.to_nat (l - f)) (skipn (Z.to_nat f) s).
Definition compare_sub (s : list Z) (start len : Z) (t : list Z) : outcome Z :=
  let f := iat s start in let l := iat s (u64 (start + len)) in
  if f <=? l then Ok (str_compare (part s f l) t) else UB.
(** ustring.h:126 [compare (s1, l1, s, s2, l2)]. *)
Definition compare_sub2 (s : list Z) (s1 l1 : Z) (t : list Z) (s2 l2 : Z) : outcome Z :=
  let f := iat s s1 in let l := iat s (u64 (s1 + l1)) in
  let f2 := iat t s2 in let e2 := iat t (u64 (s2 + l2)) in
  if (f <=? l) && (f2 <=? e2) then Ok (str_compare (part s f l) (part t f2 e2)) else UB.
(** Writing [x] to the start of the caller's array. *)
Definition put_front (buf x : list Z) : outcome (list Z) :=
  if (length x <=? length buf)%nat then Ok (x ++ skipn (length x) buf) else UB.
(** ustring.cc:99-105 [copy]: the caller's array afterwards and the count. *)
Definition s_copy (s buf : list Z) (n start : Z) : outcome (list Z * Z) :=
  if (n =? 0) || (ssize s <? start) then UB
  else
    let btc := Z.min n (ssize s - start) in
    buf <- put_front buf (firstn (Z.to_nat btc) (skipn (Z.to_nat (iat s start)) s)) ;;
    Ok (buf, btc).
(** ustring.h:123 [copyto]. *)
Definition s_copyto (s buf : list Z) (n start : Z) : outcome (list Z * Z) :=
  ' (buf, bc) <- s_copy s buf (u64 (n - 1)) start ;;
  buf <- wr buf (Z.to_nat bc) 0 ;;
  Ok (buf, bc).

(** ** Concatenation *)
Section Plus.
  Variable e : env.
  Variable nul : ptr.
  (** ustring.h:281-287 [operator+ (const string&)]. *)
  Definition str_plus (h : heap) (a b : mb) : outcome (heap * mb) :=
    ' (h, r) <- str_copy e h a ;; str_append_str e nul h r b.
  (** ustring.h:310 [operator+ (const char*, const string&)]; strlen of null is undefined. *)
  Definition str_cplus (h : heap) (p : ptr) (b : mb) : outcome (heap * mb) :=
    n <- (match p with None => UB | _ => strlen h p end) ;;
    ' (h, r) <- reserve e 1 h (str_nil nul) (u64 (n + msize b)) false ;;
    ' (h, r) <- str_append_c e nul h r p ;;
    str_append_str e nul h r b.
  (** "string r (a + b)", where r takes the place of string number [r]. *)
  Definition plus_into (s : mstate) (r i j : nat) : outcome mstate :=
    with_str s i (fun a => with_str s j (fun b => renew s r (fun h => str_plus h a b))).
  Definition cplus_into (s : mstate) (r : nat) (p : ptr) (j : nat) : outcome mstate :=
    with_str s j (fun b => renew s r (fun h => str_cplus h p b)).

  (** ustring.h:356-364 [to_string]: [t] is the text vsnprintf makes. *)
  Definition to_string (fuel : nat) (h : heap) (t : list Z) : outcome (heap * mb) :=
    ' (h, r) <- str_of_fill e h 15 0 ;;
    ' (h, r, _) <- str_vformat e nul fuel h r (Some t) ;;
    Ok (h, r).
  Definition to_string_into (fuel : nat) (s : mstate) (r : nat) (t : list Z) : outcome mstate :=
    renew s r (fun h => to_string fuel h t).
End Plus.

(** ** Numbers *)
(** printf (3) %d, %ld, %lu of an integer of at most 64 bits. *)
Fixpoint dec_digits (fuel : nat) (n : Z) (acc : list Z) : list Z :=
  match fuel with
  | O => acc
  | S k => if n <? 10 then (48 + n) :: acc else dec_digits k (n / 10) ((48 + n mod 10) :: acc)
  end.
Definition dec_text (n : Z) : list Z :=
  if n <? 0 then 45 :: dec_digits 20 (- n) [] else dec_digits 20 n [].

(** strtol (3), strtoul (3): C11 7.22.1.4.  [fin] makes the result of the sign
    and the digits' value. *)
Definition sto_sign (l : list (option Z)) (k : nat) : outcome (bool * list (option Z) * nat) :=
  match l with
  | Some 45 :: t => Ok (true, t, S k)
  | Some 43 :: t => Ok (false, t, S k)
  | Some _ :: _ => Ok (false, l, k)
  | _ => UB
  end.
Definition sto_prefix (base : Z) (l : list (option Z)) (k : nat) : outcome (Z * list (option Z) * nat) :=
  match l with
  | Some 48 :: Some x :: ((Some h :: _) as t) =>
      if ((x =? 120) || (x =? 88)) && ((base =? 0) || (base =? 16)) && (digit_value h <? 16)
      then Ok (16, t, (k + 2)%nat)
      else Ok (if base =? 0 then 8 else base, l, k)
  | Some 48 :: Some x :: _ => if (x =? 120) || (x =? 88) then UB else Ok (if base =? 0 then 8 else base, l, k)
  | Some 48 :: _ => UB
  | _ => Ok (if base =? 0 then 10 else base, l, k)
  end.
Definition strto (fin : bool -> Z -> Z) (base : Z) (l : list (option Z)) : outcome (Z * nat) :=
  ' (l, k) <- skip_spaces l O ;;
  ' (neg, l, k) <- sto_sign l k ;;
  ' (base, l, k0) <- sto_prefix base l k ;;
  ' (v, k1) <- digits base l 0 k0 ;;
  if (k1 =? k)%nat then Ok (0, O) else Ok (fin neg v, k1).
Definition fin_long (neg : bool) (v : Z) : Z := clamp_long (if neg then - v else v).
Definition fin_ulong (neg : bool) (v : Z) : Z :=
  if 2 ^ 64 <=? v then 2 ^ 64 - 1 else u64 (if neg then - v else v).
(** ustring.h:322-337 [stol], [stoll]; [stoul], [stoull]; [stoi], which
    converts the long to int: the value and what is stored in idx.  The memory
    read is the text and the zero behind it. *)
Definition stol (s : list Z) (base : Z) : outcome (Z * Z) :=
  ' (v, k) <- strto fin_long base (map Some s ++ [Some 0]) ;; Ok (v, Z.of_nat k).
Definition stoul (s : list Z) (base : Z) : outcome (Z * Z) :=
  ' (v, k) <- strto fin_ulong base (map Some s ++ [Some 0]) ;; Ok (v, Z.of_nat k).
Definition stoi (s : list Z) (base : Z) : outcome (Z * Z) :=
  ' (v, k) <- stol s base ;; Ok (to_int v, k).
