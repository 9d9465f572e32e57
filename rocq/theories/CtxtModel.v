(** * CtxtModel: values written to text streams with << (uctrstrm.h, uspecial.h,
    sostream.h, sostream.cc).

    Writing is given as the list of operations on the stream (OStrModel.v).  The
    stream has its default formatting: decimal, no width. *)
From Verif Require Import Base UtilModel OStrModel.
From Coq Require Import ZArith.
Local Open Scope Z_scope.

(** The values considered: integers (short, int, long, ...), bool, single characters,
    string, pair, matrix with NX columns, and the containers that use
    container_text_write: vector, array, tuple, set, map, multiset, multimap. *)
Inductive xty : Type :=
| XInt | XBool | XChar | XStr
| XPair (a b : xty)
| XMat (nx ny : nat) (a : xty)
| XBytes                                         (* a container of uint8_t or int8_t *)
| XCtr (a : xty).                                (* of other elements *)
Fixpoint xval (t : xty) : Type :=
  match t with
  | XInt | XChar => Z
  | XBool => bool
  | XStr => list Z
  | XPair a b => (xval a * xval b)%type
  | XMat _ _ a => list (xval a)                  (* row by row *)
  | XBytes => list Z
  | XCtr a => list (xval a)
  end.

(** The decimal digits snprintf prints for %d, %ld etc. *)
Fixpoint dec_loop (fuel : nat) (n : Z) (l : list Z) : list Z :=
  match fuel with
  | O => l
  | S f => let l := (48 + n mod 10) :: l in if n / 10 =? 0 then l else dec_loop f (n / 10) l
  end.
Definition printf_d (n : Z) : list Z :=
  if n <? 0 then 45 :: dec_loop 20 (- n) [] else dec_loop 20 n [].
(** isprint in the "C" locale. *)
Definition isprint (c : Z) : bool := (32 <=? c) && (c <=? 126).
(** ualgobase.cc:284 [_FmtPrtChr], uspecial.h:140-152 [chartype_text_write] and
    the specialisations of container_element_text_write for uint8_t and int8_t. *)
Definition char_elem (c : Z) : list oop := [OFormat (if isprint c then [39; c mod 256; 39] else printf_d c)].
(** uctrstrm.h:118-130 [container_text_write]: [first] while i == v.begin(). *)
Fixpoint ctr_loop {A} (elem : A -> list oop) (first : bool) (l : list A) : list oop :=
  match l with
  | [] => []
  | x :: r => (if first then [] else [OPut 44]) ++ elem x ++ ctr_loop elem false r
  end.
(** uspecial.h:163-164: one row of the matrix, [k] the columns left. *)
Fixpoint row_loop {A} (elem : A -> list oop) (k : nat) (l : list A) : list oop * list A :=
  match k, l with
  | S k', x :: r => let '(o, r) := row_loop elem k' r in (elem x ++ OPut (if (k' =? 0)%nat then 41 else 44) :: o, r)
  | _, _ => ([], l)
  end.
(** uspecial.h:161-165. *)
Fixpoint rows_loop {A} (elem : A -> list oop) (nx rows : nat) (l : list A) : list oop :=
  match rows with
  | O => []
  | S k => let '(o, r) := row_loop elem nx l in OPut 40 :: o ++ rows_loop elem nx k r
  end.
(** operator<< (sostream.h:129-143). *)
Fixpoint text_ops (t : xty) : xval t -> list oop :=
  match t return xval t -> list oop with
  | XInt => fun n => [OFormat (printf_d n)]                                  (* sostream.h:31-36, 111-117 *)
  | XBool => fun b => [OWrite (if b then [116; 114; 117; 101] else [102; 97; 108; 115; 101])]   (* sostream.cc:114-118 *)
  | XChar => fun c => [OPut c]                                               (* sostream.h:30, sostream.cc:49-53 *)
  | XStr => fun l => [OWrite l]                                              (* sostream.h:43 *)
  | XPair a b => fun p => [OPut 40] ++ text_ops a (fst p) ++ [OPut 44] ++ text_ops b (snd p) ++ [OPut 41]   (* uspecial.h:72-76 *)
  | XMat nx ny a => fun l => OPut 40 :: rows_loop (text_ops a) nx ny l ++ [OPut 41]      (* uspecial.h:156-167 *)
  | XBytes => fun l => OPut 40 :: ctr_loop char_elem true l ++ [OPut 41]
  | XCtr a => fun l => OPut 40 :: ctr_loop (text_ops a) true l ++ [OPut 41]  (* uctrstrm.h:112-116 *)
  end.
