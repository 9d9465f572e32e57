(** * Utf8Model: utf8.h.

    A wchar_t is 32 bits, signed; characters are given as their unsigned value
    0 .. 2^32-1 to the sizing functions and as a signed value to the encoder.
    Bytes are 0..255 (utf8subchar_t, or char seen as unsigned). *)
From Verif Require Import Base UtilModel.
From Coq Require Import ZArith.
Local Open Scope Z_scope.

(** A 32 bit value as a signed int. *)
Definition wchar (x : Z) : Z := let y := u32 x in if y <? 2 ^ 31 then y else y - 2 ^ 32.

(** utf8.h:35-50, the x86 branch: bsr is the number of the highest set bit. *)
Definition utf8_bytes (v : Z) : Z :=
  let u := u32 v in if u <? 128 then 1 else (Z.log2 u + 4) / 5.
(** utf8.h:35-50, the portable branch. *)
Definition c_bounds : list Z := [127; 2047; 65535; 2097151; 67108863; 2147483647; 4294967295].
Fixpoint bounds_loop (n : nat) (u : Z) (fuel : nat) : outcome Z :=
  b <- rd c_bounds n ;;
  if b <? u then match fuel with O => NoFuel | S f => bounds_loop (S n) u f end
  else Ok (Z.of_nat (S n)).
Definition utf8_bytes_portable (v : Z) : outcome Z :=
  let u := u32 v in if u <? 128 then Ok 1 else bounds_loop 0 u 7.
(** utf8.h:53-59. *)
Fixpoint utf8_bytes_all (l : list Z) : Z :=
  match l with [] => 0 | v :: t => utf8_bytes v + utf8_bytes_all t end.

(** utf8.h:62-76: the mask runs from 0x80 down to 0; [c] is a byte (its sign
    extension has the same low 8 bits). *)
Fixpoint lead_ones (c mask : Z) (n : Z) (fuel : nat) : outcome Z :=
  if Z.land c mask =? 0 then Ok n
  else match fuel with O => NoFuel | S f => lead_ones c (Z.shiftr mask 1) (n + 1) f end.
Definition seq_bytes (c : Z) : outcome Z :=
  n <- lead_ones c 128 0 8 ;; Ok (if n =? 0 then 1 else n).

(** utf8.h:180-193: the bytes written.  Shifting a 32 bit value by 32 or more is undefined. *)
Definition shr32 (v s : Z) : outcome Z := if s <? 32 then Ok (Z.shiftr v s) else UB.
Fixpoint out_tail (v shift : Z) (fuel : nat) : outcome (list Z) :=
  if shift =? 0 then Ok []
  else match fuel with
  | O => NoFuel
  | S f =>
      x <- shr32 v (shift - 6) ;;
      t <- out_tail v (shift - 6) f ;;
      Ok (Z.lor (Z.land x 63) 128 :: t)
  end.
Definition utf8_out (v : Z) : outcome (list Z) :=
  let n := utf8_bytes v in
  if 1 <? n then
    let shift := n * 6 - 6 in
    x <- shr32 v shift ;;
    t <- out_tail v shift 8 ;;
    Ok (Z.lor (Z.land x 63) (Z.land (Z.shiftl 255 (8 - n)) 255) :: t)
  else Ok [Z.land v 255].
Fixpoint utf8_out_all (l : list Z) : outcome (list Z) :=
  match l with
  | [] => Ok []
  | v :: t => a <- utf8_out v ;; b <- utf8_out_all t ;; Ok (a ++ b)
  end.

(** utf8.h:132-134: [_v] is a signed 32 bit value; shifting a negative value,
    or out of the 32 bits, is undefined. *)
Definition shl6 (v b : Z) : outcome Z :=
  if (v <? 0) || (2 ^ 32 <=? v * 64) then UB else Ok (wchar (Z.lor (Z.shiftl v 6) (Z.land b 63))).
Fixpoint read_tail (buf : list Z) (i : nat) (v : Z) (n : nat) : outcome (nat * Z) :=
  match n with
  | O => Ok (i, v)
  | S k =>
      b <- rd buf (S i) ;;
      if b =? 0 then Ok (S i, v) else v' <- shl6 v b ;; read_tail buf (S i) v' k
  end.
(** utf8.h:128-135 [Read]: from [_i] to the new [_i], which is the last byte read, and [_v]. *)
Definition utf8_read (buf : list Z) (i : nat) : outcome (nat * Z) :=
  c <- rd buf i ;;
  n <- seq_bytes c ;;
  read_tail buf i (Z.land c (Z.shiftr 255 n)) (Z.to_nat (n - 1)).
(** utf8.h:109 [base]. *)
Definition utf8_base (it : nat * Z) : Z := Z.of_nat (fst it) - (utf8_bytes (snd it) - 1).
(** utf8.h:112 [operator++], 114 [operator+=]. *)
Definition utf8_next (buf : list Z) (it : nat * Z) : outcome (nat * Z) := utf8_read buf (S (fst it)).
Fixpoint utf8_skip (buf : list Z) (it : nat * Z) (n : nat) : outcome (nat * Z) :=
  match n with O => Ok it | S k => it <- utf8_next buf it ;; utf8_skip buf it k end.
(** copy (utf8in (begin), utf8in (end), ...): ualgobase.h:77-83; iterators
    compare by position (utf8.h:116). *)
Fixpoint utf8_copy (buf : list Z) (it : nat * Z) (stop : nat) (fuel : nat) : outcome (list Z) :=
  if Nat.eqb (fst it) stop then Ok []
  else match fuel with
  | O => NoFuel
  | S f => it' <- utf8_next buf it ;; t <- utf8_copy buf it' stop f ;; Ok (snd it :: t)
  end.
(** Reading all characters of the zero terminated bytes [l]: both iterators
    are constructed, which reads a character at the end as well. *)
Definition utf8_in_all (l : list Z) : outcome (list Z) :=
  let buf := l ++ [0] in
  first <- utf8_read buf 0 ;; last <- utf8_read buf (length l) ;;
  utf8_copy buf first (fst last) (S (length l)).
(** utf8.h:140-146 [operator-]: [last] - [first] counts characters. *)
Fixpoint utf8_dist (buf : list Z) (first last : nat) (fuel : nat) : outcome Z :=
  if Nat.ltb first last then
    match fuel with
    | O => NoFuel
    | S f =>
        c <- rd buf first ;; n <- seq_bytes c ;;
        d <- utf8_dist buf (first + Z.to_nat n) last f ;; Ok (d + 1)
    end
  else Ok 0.
(** ustring.h:100 [length]. *)
Definition str_length (l : list Z) : outcome Z :=
  let buf := l ++ [0] in
  first <- utf8_read buf 0 ;; last <- utf8_read buf (length l) ;;
  utf8_dist buf (fst first) (fst last) (S (length l)).
(** ustring.cc:130-135 [wiat]: the position of character [i]. *)
Definition str_wiat (l : list Z) (i : nat) : outcome Z :=
  let buf := l ++ [0] in
  it <- utf8_read buf 0 ;; it <- utf8_skip buf it i ;; Ok (utf8_base it).
