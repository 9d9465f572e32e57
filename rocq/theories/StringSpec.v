(** * StringSpec: what a history of string operations should do.

    A string is a list of bytes, [None] where resize leaves a byte
    unspecified.  Positions and lengths beyond the end are cut off. *)
From Coq Require Import List ZArith Bool.
From Verif Require Import Base StoreModel VectorSpec MemModel MemSpec StringModel.
Local Open Scope Z_scope.

(** The first [n] bytes, and all but the first [n], for any [n]. *)
Definition upto {A} (n : Z) (l : list A) : list A := firstn (Z.to_nat (Z.min n (Z.of_nat (length l)))) l.
Definition from {A} (n : Z) (l : list A) : list A := skipn (Z.to_nat (Z.min n (Z.of_nat (length l)))) l.
(** The bytes of the C string at [p] in the caller's memory. *)
Fixpoint c_prefix (cells : list (option Z)) : list (option Z) :=
  match cells with
  | Some c :: t => if c =? 0 then [] else Some c :: c_prefix t
  | _ => []
  end.
Definition c_bytes (h0 : heap) (p : ptr) : list (option Z) :=
  match p with
  | Some (b, o) => match nth_error h0 b with Some k => c_prefix (skipn (Z.to_nat o) (bcells k)) | None => [] end
  | None => []
  end.
(** [p] is null or a terminated C string of the caller, below 2^31 bytes. *)
Definition can_read_c (h0 : heap) (p : ptr) : Prop :=
  p = None \/
  exists b k pre l post, p = Some (b, Z.of_nat (length pre)) /\ nth_error h0 b = Some k /\
    bcells k = pre ++ map Some l ++ Some 0 :: post /\ Forall (fun c => c <> 0) l /\ Z.of_nat (length l) < 2 ^ 31.
Definition times {A} (x : list A) (n : Z) : list A := concat (repeat x (Z.to_nat n)).

Section Spec.
  Variable h0 : heap.
  Definition sspec_step (ss : list (list (option Z))) (o : sop) : list (list (option Z)) :=
    let ins i ip x := put ss i (upto ip (get ss i) ++ x ++ from ip (get ss i)) in
    let repl i rp n x := put ss i (upto rp (get ss i) ++ x ++ from (rp + n) (get ss i)) in
    match o with
    | SOfC i p | SAssignC i p => put ss i (c_bytes h0 p)
    | SCopyOf i j | SAssignStr i j => put ss i (get ss j)
    | SMoveOf i j => put (put ss i (get ss j)) j []
    | SOfFill i n c | SAssignFill i n c => put ss i (repeat (Some c) (Z.to_nat n))
    | SSubstr i j o n | SAssignSub i j o n => put ss i (upto n (from o (get ss j)))
    | SAssign i p len => put ss i (bytes_at h0 p len)
    | SAppend i p len => put ss i (get ss i ++ bytes_at h0 p len)
    | SAppendC i p => put ss i (get ss i ++ c_bytes h0 p)
    | SAppendStr i j => put ss i (get ss i ++ get ss j)
    | SAppendFill i n c => put ss i (get ss i ++ repeat (Some c) (Z.to_nat n))
    | SPushBack i c => put ss i (get ss i ++ [Some c])
    | SPopBack i => put ss i (removelast (get ss i))
    | SResize i n => put ss i (seq_resize (get ss i) (Z.to_nat n) None)
    | SResizeFill i n c => put ss i (seq_resize (get ss i) (Z.to_nat n) (Some c))
    | SClear i => put ss i []
    | SReserve _ _ => ss
    | SInsertFill i ip n c => ins i ip (repeat (Some c) (Z.to_nat n))
    | SInsert i ip p len cnt => ins i ip (times (bytes_at h0 p len) cnt)
    | SInsertSub i ip j o n => ins i ip (upto n (from o (get ss j)))
    | SErase i ep n => put ss i (upto ep (get ss i) ++ from (ep + n) (get ss i))
    | SReplace i rp n p len cnt => repl i rp n (times (bytes_at h0 p len) cnt)
    | SReplaceStr i rp n j => repl i rp n (get ss j)
    | SReplaceFill i rp n cnt c => repl i rp n (repeat (Some c) (Z.to_nat cnt))
    | SSet i pos c => put ss i (put (get ss i) (Z.to_nat pos) (Some c))
    | SSwap i j => put (put ss i (get ss j)) j (get ss i)
    end.

  Definition fits (n : Z) : Prop := 0 <= n < 2 ^ 31.
  Definition is_pos (n : Z) : Prop := 0 <= n < 2 ^ 63.
  (** The byte moves of inserting [n] bytes at [ip] of [len], or of erasing
      them, are among those the x86 routines get right (C21). *)
  Definition ins_moves (len ip n : Z) : Prop :=
    n = 0 \/ len <= ip \/ rot_good ip len (len + n) = true.
  Definition del_moves (len ep n : Z) : Prop :=
    n = 0 \/ ep + n = len \/ rot_good ep (ep + n) len = true.
  (** Replacing [f, l) of [len] bytes by [n] bytes inserts or erases the difference at [f]. *)
  Definition rep_moves (len f l n : Z) : Prop :=
    (l - f < n -> ins_moves len f (n - (l - f))) /\ (n < l - f -> del_moves len f (l - f - n)).

  (** What the caller has to respect: strings exist and differ where an
      operation reads one while changing the other, results stay below 2^31
      bytes, sources are readable, erase starts inside the string. *)
  Definition sop_pre (ss : list (list (option Z))) (o : sop) : Prop :=
    let ok i := (i < length ss)%nat in
    let two i j := ok i /\ ok j /\ i <> j in
    let L i := len ss i in
    let newlen i := len (sspec_step ss o) i in
    match o with
    | SOfC i p | SAssignC i p => ok i /\ can_read_c h0 p
    | SAppendC i p => ok i /\ can_read_c h0 p /\ fits (newlen i)
    | SCopyOf i j | SMoveOf i j => two i j
    | SAssignStr i j | SSwap i j => ok i /\ ok j
    | SAppendStr i j => two i j /\ fits (newlen i)
    | SOfFill i n _ | SAssignFill i n _ => ok i /\ fits n
    | SSubstr i j o n | SAssignSub i j o n => two i j /\ is_pos o /\ is_pos n
    | SAssign i p n => ok i /\ fits n /\ can_read h0 p n
    | SAppend i p n => ok i /\ 0 <= n /\ can_read h0 p n /\ fits (newlen i)
    | SAppendFill i n _ => ok i /\ 0 <= n /\ fits (newlen i)
    | SPushBack i _ => ok i /\ fits (newlen i)
    | SPopBack i => ok i /\ get ss i <> []
    | SResize i n | SResizeFill i n _ => ok i /\ fits n
    | SClear i => ok i
    | SReserve i n => ok i /\ L i <= n /\ fits n
    | SInsertFill i ip n _ => ok i /\ is_pos ip /\ 0 <= n /\ fits (newlen i) /\ ins_moves (L i) ip n
    | SInsert i ip p n cnt => ok i /\ is_pos ip /\ 0 <= n /\ 0 <= cnt /\ can_read h0 p n /\ fits (newlen i) /\ ins_moves (L i) ip (n * cnt)
    | SInsertSub i ip j o n => two i j /\ is_pos ip /\ is_pos o /\ is_pos n /\ fits (newlen i) /\
        ins_moves (L i) ip (Z.of_nat (length (upto n (from o (get ss j)))))
    | SErase i ep n => ok i /\ 0 <= ep <= L i /\ is_pos n /\ del_moves (L i) ep (Z.min n (L i - ep))
    | SReplace i rp n p pn cnt => ok i /\ is_pos rp /\ is_pos n /\ 0 <= pn /\ 0 <= cnt /\ can_read h0 p pn /\ fits (newlen i) /\
        rep_moves (L i) (Z.min rp (L i)) (Z.min (rp + n) (L i)) (pn * cnt)
    | SReplaceStr i rp n j => two i j /\ is_pos rp /\ is_pos n /\ fits (newlen i) /\
        rep_moves (L i) (Z.min rp (L i)) (Z.min (rp + n) (L i)) (L j)
    | SReplaceFill i rp n cnt _ => ok i /\ is_pos rp /\ is_pos n /\ 0 <= cnt /\ fits (newlen i) /\
        rep_moves (L i) (Z.min rp (L i)) (Z.min (rp + n) (L i)) cnt
    | SSet i pos _ => ok i /\ 0 <= pos < L i
    end.
  Fixpoint sspec_run (ss : list (list (option Z))) (ops : list sop) : list (list (option Z)) :=
    match ops with [] => ss | o :: t => sspec_run (sspec_step ss o) t end.
  Fixpoint sops_pre (ss : list (list (option Z))) (ops : list sop) : Prop :=
    match ops with [] => True | o :: t => sop_pre ss o /\ sops_pre (sspec_step ss o) t end.

  (** Operations that do not copy a linked string before writing: [at] = c,
      and replace when the length stays the same.  They must only be used on
      strings with their own storage (is_linked() is false); what happens
      otherwise is C57. *)
  Definition writes_in_place (ss : list (list (option Z))) (o : sop) : option nat :=
    match o with
    | SSet i _ _ => Some i
    | SReplace i _ _ _ _ _ | SReplaceStr i _ _ _ | SReplaceFill i _ _ _ _ =>
        if (len (sspec_step ss o) i =? len ss i) then Some i else None
    | _ => None
    end.
End Spec.
Definition careful_op (h0 : heap) (ss : list (list (option Z))) (ms : list mb) (o : sop) : Prop :=
  match o with
  | SReserve i _ => forall m, nth_error ms i = Some m -> mptr m <> None   (* not moved from *)
  | _ =>
    match writes_in_place h0 ss o with
    | Some i => forall m, nth_error ms i = Some m -> is_linked m = false
    | None => True
    end
  end.
Fixpoint careful (e : env) (nul : ptr) (h0 : heap) (ss : list (list (option Z))) (s : mstate) (ops : list sop) : Prop :=
  match ops with
  | [] => True
  | o :: t => careful_op h0 ss (snd s) o /\ forall s', sstep e nul s o = Ok s' -> careful e nul h0 (sspec_step h0 ss o) s' t
  end.

(** A string is as specified: size, bytes, storage; and c_str()[size()] is a
    zero that may be read, unless the string was moved from. *)
Definition sresult (h : heap) (m : mb) (s : list (option Z)) : Prop :=
  mresult h m s /\ (mptr m = None /\ s = [] \/ str_last h m = Ok [Some 0]) /\ (is_linked m = false -> msize m < mcap m).
