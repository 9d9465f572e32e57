(** * Utf8Spec: the encoding of a character below 2^31, after the table at the
    head of utf8.h. *)
From Coq Require Import List ZArith.
Import ListNotations.
Local Open Scope Z_scope.

Definition cont (v k : Z) : Z := 128 + v / 64 ^ k mod 64.      (* 10xxxxxx, group k from the right *)
Definition encode (v : Z) : list Z :=
  if v <? 2 ^ 7 then [v]                                                              (* 0xxxxxxx *)
  else if v <? 2 ^ 11 then [192 + v / 64; cont v 0]                                    (* 110xxxxx .. *)
  else if v <? 2 ^ 16 then [224 + v / 64 ^ 2; cont v 1; cont v 0]
  else if v <? 2 ^ 21 then [240 + v / 64 ^ 3; cont v 2; cont v 1; cont v 0]
  else if v <? 2 ^ 26 then [248 + v / 64 ^ 4; cont v 3; cont v 2; cont v 1; cont v 0]
  else [252 + v / 64 ^ 5; cont v 4; cont v 3; cont v 2; cont v 1; cont v 0].
Definition encode_all (l : list Z) : list Z := concat (map encode l).
Definition is_char (v : Z) : Prop := 0 <= v < 2 ^ 31.
