(** * Utf8IterSpec: text with stray bytes in it. *)
From Coq Require Import List ZArith.
From Verif Require Import Utf8Spec.
Import ListNotations.
Local Open Scope Z_scope.

(** A character, or a continuation byte (10xxxxxx) that belongs to none. *)
Inductive item : Type := Char (v : Z) | Stray (b : Z).
Definition item_ok (x : item) : Prop := match x with Char v => is_char v | Stray b => 128 <= b < 192 end.
Definition item_bytes (x : item) : list Z := match x with Char v => encode v | Stray b => [b] end.
(** What a reader shows: "one [extra character] for every misaligned byte". *)
Definition item_char (x : item) : Z := match x with Char v => v | Stray b => b - 128 end.
