(** * QueueModel: queue and stack (uqueue.h, ustack.h) over vector.

    The storage is VectorModel's vector.  swap and move assignment of both
    adapters do not compile when instantiated (they pass the adapter where a
    vector is expected: uqueue.h:41, ustack.h:34) and are not modelled. *)
From Verif Require Import Base StoreModel VectorModel.
From Coq Require Import ZArith.
Local Open Scope nat_scope.

Section Queue.
  Context {T : Type}.
  Variable e : env.
  Variable es : Z.                       (* sizeof(T) *)
  Variable eqb : T -> T -> bool.         (* equality of object representations *)

  (** uqueue.h:52-53. *)
  Record queue := mkq { qst : vec T; qfront : nat }.
  (** uqueue.h:25. *)
  Definition q_new : queue := mkq vec_nil 0.
  (** uqueue.h:26 with uvector.h:201-222: from a container with elements [l]. *)
  Definition q_of (l : list T) : outcome queue := v <- vec_of e es l ;; Ok (mkq v 0).
  (** uqueue.h:27. *)
  Definition q_copy (q : queue) : outcome queue :=
    l <- contents (qst q) ;; v <- vec_of e es l ;; Ok (mkq v 0).
  (** uqueue.h:28-29 (size_type). *)
  Definition q_size (q : queue) : Z := ((Z.of_nat (vsize (qst q)) - Z.of_nat (qfront q)) mod 2 ^ 64)%Z.
  Definition q_empty (q : queue) : bool := (q_size q =? 0)%Z.
  (** uqueue.h:30-31. *)
  Definition q_front (q : queue) : outcome T := vat (qst q) (qfront q).
  (** uqueue.h:32-33. *)
  Definition v_back (v : vec T) : outcome T := match vsize v with O => UB | S n => vat v n end.
  Definition q_back (q : queue) : outcome T := v_back (qst q).
  (** uqueue.h:34, 49. *)
  Definition q_push (q : queue) (x : T) : outcome queue :=
    v <- push_back e es (qst q) x ;; Ok (mkq v (qfront q)).
  (** uqueue.h:35-40. *)
  Definition q_pop (q : queue) : outcome queue :=
    let f := S (qfront q) in
    if vsize (qst q) / 2 <? f then v <- erase e es (qst q) 0 f ;; Ok (mkq v 0)
    else Ok (mkq (qst q) f).
  (** cmemlink.h:61-62 [operator==] of the two vectors' bytes. *)
  Fixpoint list_eqb (a b : list T) : bool :=
    match a, b with
    | [], [] => true
    | x :: s, y :: t => eqb x y && list_eqb s t
    | _, _ => false
    end.
  Definition v_eq (a b : vec T) : outcome bool := l <- contents a ;; k <- contents b ;; Ok (list_eqb l k).
  (** uqueue.h:42. *)
  Definition q_eq (a b : queue) : outcome bool := r <- v_eq (qst a) (qst b) ;; Ok (r && (qfront a =? qfront b)).
  (** uqueue.h:43. *)
  Definition q_less (a b : queue) : bool := (q_size a <? q_size b)%Z.

  (** Histories over several queues. *)
  Inductive qop : Type :=
  | QNew (i : nat) | QOf (i : nat) (l : list T) | QCopy (i j : nat) | QMove (i j : nat)   (* constructors *)
  | QPush (i : nat) (x : T) | QPop (i : nat)
  | QFront (i : nat) | QBack (i : nat) | QSize (i : nat) | QEmpty (i : nat) | QLess (i j : nat).
  Inductive qout : Type := QNone | QVal (x : T) | QNum (n : Z) | QBool (b : bool).

  (** A constructor into slot [i]: the queue that was there is destroyed first. *)
  Definition q_renew (s : list queue) (i : nat) (q : queue) : outcome (list queue) :=
    old <- rd s i ;; _ <- deallocate (qst old) ;; wr s i q.
  Definition q_step (s : list queue) (o : qop) : outcome (list queue * qout) :=
    match o with
    | QNew i => s <- q_renew s i q_new ;; Ok (s, QNone)
    | QOf i l => q <- q_of l ;; s <- q_renew s i q ;; Ok (s, QNone)
    | QCopy i j => q <- rd s j ;; q <- q_copy q ;; s <- q_renew s i q ;; Ok (s, QNone)
    | QMove i j =>                                  (* uqueue.h:45, memblock.h:53 *)
        q <- rd s j ;; s <- q_renew s i q ;; s <- wr s j (mkq vec_nil 0) ;; Ok (s, QNone)
    | QPush i x => q <- rd s i ;; q <- q_push q x ;; s <- wr s i q ;; Ok (s, QNone)
    | QPop i => q <- rd s i ;; q <- q_pop q ;; s <- wr s i q ;; Ok (s, QNone)
    | QFront i => q <- rd s i ;; x <- q_front q ;; Ok (s, QVal x)
    | QBack i => q <- rd s i ;; x <- q_back q ;; Ok (s, QVal x)
    | QSize i => q <- rd s i ;; Ok (s, QNum (q_size q))
    | QEmpty i => q <- rd s i ;; Ok (s, QBool (q_empty q))
    | QLess i j => a <- rd s i ;; b <- rd s j ;; Ok (s, QBool (q_less a b))
    end.

  (** ustack.h:25-38. *)
  Inductive kop : Type :=
  | KOf (l : list T) | KPush (x : T) | KPop | KTop | KSize | KEmpty.
  Definition k_step (v : vec T) (o : kop) : outcome (vec T * qout) :=
    match o with
    | KOf l => _ <- deallocate v ;; v <- vec_of e es l ;; Ok (v, QNone)     (* ustack.h:26, 27 *)
    | KPush x => v <- push_back e es v x ;; Ok (v, QNone)                   (* ustack.h:32 *)
    | KPop => v <- pop_back v ;; Ok (v, QNone)                              (* ustack.h:33 *)
    | KTop => x <- v_back v ;; Ok (v, QVal x)                               (* ustack.h:30, 31 *)
    | KSize => Ok (v, QNum (Z.of_nat (vsize v)))                            (* ustack.h:29 *)
    | KEmpty => Ok (v, QBool (Nat.eqb (vsize v) 0))                         (* ustack.h:28 *)
    end.
End Queue.
Arguments queue : clear implicits.
Arguments qop : clear implicits.
Arguments qout : clear implicits.
Arguments kop : clear implicits.
