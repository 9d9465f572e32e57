(** * CtxtSpec: the text of a value. *)
From Verif Require Import Base FmtSpec IstrSpec CtxtModel.
From Coq Require Import ZArith.
Local Open Scope Z_scope.

(** The decimal notation of an integer is a relation of IstrSpec.v
    ([integer_text]); so is the text of a value. *)
Inductive char_text : Z -> list Z -> Prop :=
| char_quoted c : 32 <= c <= 126 -> char_text c [39; c; 39]
| char_number c t : ~ (32 <= c <= 126) -> integer_text t c -> char_text c t.
(** The rows of a matrix. *)
Fixpoint in_rows {A} (nx ny : nat) (l : list A) : list (list A) :=
  match ny with O => [] | S k => firstn nx l :: in_rows nx k (skipn nx l) end.
Definition list_text (ts : list (list Z)) : list Z := [40] ++ joined 44 ts ++ [41].
Fixpoint text_of (t : xty) : xval t -> list Z -> Prop :=
  match t return xval t -> list Z -> Prop with
  | XInt => fun n s => integer_text s n
  | XBool => fun b s => s = if b then [116; 114; 117; 101] else [102; 97; 108; 115; 101]
  | XChar => fun c s => s = [c]
  | XStr => fun l s => s = l
  | XPair a b => fun p s => exists s1 s2, text_of a (fst p) s1 /\ text_of b (snd p) s2 /\ s = list_text [s1; s2]
  | XMat nx ny a => fun l s => exists rows, Forall2 (Forall2 (text_of a)) (in_rows nx ny l) rows /\ s = [40] ++ concat (map list_text rows) ++ [41]
  | XBytes => fun l s => exists ts, Forall2 char_text l ts /\ s = list_text ts
  | XCtr a => fun l s => exists ts, Forall2 (text_of a) l ts /\ s = list_text ts
  end.
(** The values a program can have. *)
Fixpoint is_value (t : xty) : xval t -> Prop :=
  match t return xval t -> Prop with
  | XInt => fun n => - 2 ^ 63 <= n < 2 ^ 64
  | XBool => fun _ => True
  | XChar => fun c => 0 <= c < 256
  | XStr => fun _ => True
  | XPair a b => fun p => is_value a (fst p) /\ is_value b (snd p)
  | XMat nx ny a => fun l => length l = (nx * ny)%nat /\ Forall (is_value a) l
  | XBytes => Forall (fun c => - 128 <= c < 256)
  | XCtr a => Forall (is_value a)
  end.
(** Types without strings and containers of char, and matrices with columns. *)
Fixpoint no_strings (t : xty) : Prop :=
  match t with
  | XStr => False
  | XPair a b => no_strings a /\ no_strings b
  | XMat nx _ a => (0 < nx)%nat /\ no_strings a
  | XCtr a => a <> XChar /\ no_strings a
  | _ => True
  end.
Fixpoint has_columns (t : xty) : Prop :=
  match t with
  | XPair a b => has_columns a /\ has_columns b
  | XMat nx _ a => (0 < nx)%nat /\ has_columns a
  | XCtr a => has_columns a
  | _ => True
  end.
