(** * WideSpec: what wide character edits should do, on bytes and on characters. *)
From Coq Require Import List ZArith Bool.
From Verif Require Import Base StoreModel VectorSpec MemModel MemSpec StringModel StringSpec Utf8Spec WideModel.
Local Open Scope Z_scope.

(** The bytes of [n] copies of the characters [l]. *)
Definition wbytes (l : list Z) (n : Z) : list (option Z) := map Some (times (encode_all l) n).

Section Spec.
  Variable h0 : heap.
  (** On bytes: positions are byte positions, cut off at the end. *)
  Definition wspec_step (ss : list (list (option Z))) (o : wop) : list (list (option Z)) :=
    let ins i ip x := put ss i (upto ip (get ss i) ++ x ++ from ip (get ss i)) in
    match o with
    | WNarrow o => sspec_step h0 ss o
    | WInsertFill i ip n c => ins i ip (wbytes [c] n)
    | WInsert i ip l n => ins i ip (wbytes l n)
    | WAppendFill i n c => put ss i (get ss i ++ wbytes [c] n)
    | WPushBack i c => put ss i (get ss i ++ wbytes [c] 1)
    | WAssignFill i n c => put ss i (wbytes [c] n)
    end.
  (** What the caller has to respect: characters are below 2^31, results stay
      below 2^31 bytes, and the byte moves are among those of C21. *)
  Definition wop_pre (ss : list (list (option Z))) (o : wop) : Prop :=
    let newlen i := len (wspec_step ss o) i in
    match o with
    | WNarrow o => sop_pre h0 ss o
    | WInsertFill i ip n c => (i < length ss)%nat /\ is_pos ip /\ 0 <= n /\ is_char c /\ fits (newlen i) /\
        ins_moves (len ss i) ip (Z.of_nat (length (wbytes [c] n)))
    | WInsert i ip l n => (i < length ss)%nat /\ is_pos ip /\ 0 <= n /\ Forall is_char l /\ Z.of_nat (length (encode_all l)) < 2 ^ 31 /\
        fits (newlen i) /\ ins_moves (len ss i) ip (Z.of_nat (length (wbytes l n)))
    | WAppendFill i n c | WAssignFill i n c => (i < length ss)%nat /\ 0 <= n /\ is_char c /\ fits (newlen i)
    | WPushBack i c => (i < length ss)%nat /\ is_char c /\ fits (newlen i)
    end.
  Fixpoint wspec_run (ss : list (list (option Z))) (ops : list wop) : list (list (option Z)) :=
    match ops with [] => ss | o :: t => wspec_run (wspec_step ss o) t end.
  Fixpoint wops_pre (ss : list (list (option Z))) (ops : list wop) : Prop :=
    match ops with [] => True | o :: t => wop_pre ss o /\ wops_pre (wspec_step ss o) t end.
End Spec.
Definition wcareful_op (h0 : heap) (ss : list (list (option Z))) (ms : list mb) (o : wop) : Prop :=
  match o with WNarrow o => careful_op h0 ss ms o | _ => True end.
Fixpoint wcareful (e : env) (nul : ptr) (h0 : heap) (ss : list (list (option Z))) (s : mstate) (ops : list wop) : Prop :=
  match ops with
  | [] => True
  | o :: t => wcareful_op h0 ss (snd s) o /\ forall s', wstep e nul s o = Ok s' -> wcareful e nul h0 (wspec_step h0 ss o) s' t
  end.

(** ** On characters *)
(** An edit at character [j] of the string, which the program locates with
    wiat (j): the byte position after the first [j] characters. *)
Inductive cop : Type :=
| CInsertFill (i j : nat) (n c : Z)
| CInsert (i j : nat) (l : list Z) (n : Z)
| CAppendFill (i : nat) (n c : Z)
| CPushBack (i : nat) (c : Z)
| CAssignFill (i : nat) (n c : Z).
Definition cspec_step (ws : list (list Z)) (o : cop) : list (list Z) :=
  let ins i j x := put ws i (firstn j (get ws i) ++ x ++ skipn j (get ws i)) in
  match o with
  | CInsertFill i j n c => ins i j (repeat c (Z.to_nat n))
  | CInsert i j l n => ins i j (times l n)
  | CAppendFill i n c => put ws i (get ws i ++ repeat c (Z.to_nat n))
  | CPushBack i c => put ws i (get ws i ++ [c])
  | CAssignFill i n c => put ws i (repeat c (Z.to_nat n))
  end.
Definition char_pos (w : list Z) (j : nat) : Z := Z.of_nat (length (encode_all (firstn j w))).
(** The call that performs the edit when the strings hold the characters [ws]. *)
Definition call_of (ws : list (list Z)) (o : cop) : wop :=
  match o with
  | CInsertFill i j n c => WInsertFill i (char_pos (get ws i) j) n c
  | CInsert i j l n => WInsert i (char_pos (get ws i) j) l n
  | CAppendFill i n c => WAppendFill i n c
  | CPushBack i c => WPushBack i c
  | CAssignFill i n c => WAssignFill i n c
  end.
Fixpoint calls_of (ws : list (list Z)) (ops : list cop) : list wop :=
  match ops with [] => [] | o :: t => call_of ws o :: calls_of (cspec_step ws o) t end.
Fixpoint cspec_run (ws : list (list Z)) (ops : list cop) : list (list Z) :=
  match ops with [] => ws | o :: t => cspec_run (cspec_step ws o) t end.
Definition esize (w : list Z) : Z := Z.of_nat (length (encode_all w)).
Definition cop_pre (ws : list (list Z)) (o : cop) : Prop :=
  let newsize i := esize (get (cspec_step ws o) i) in
  match o with
  | CInsertFill i j n c => (i < length ws)%nat /\ (j <= length (get ws i))%nat /\ 0 <= n /\ is_char c /\ newsize i < 2 ^ 31 /\
      ins_moves (esize (get ws i)) (char_pos (get ws i) j) (esize [c] * n)
  | CInsert i j l n => (i < length ws)%nat /\ (j <= length (get ws i))%nat /\ 0 <= n /\ Forall is_char l /\ esize l < 2 ^ 31 /\
      newsize i < 2 ^ 31 /\ ins_moves (esize (get ws i)) (char_pos (get ws i) j) (esize l * n)
  | CAppendFill i n c | CAssignFill i n c => (i < length ws)%nat /\ 0 <= n /\ is_char c /\ newsize i < 2 ^ 31
  | CPushBack i c => (i < length ws)%nat /\ is_char c /\ newsize i < 2 ^ 31
  end.
Fixpoint cops_pre (ws : list (list Z)) (ops : list cop) : Prop :=
  match ops with [] => True | o :: t => cop_pre ws o /\ cops_pre (cspec_step ws o) t end.
