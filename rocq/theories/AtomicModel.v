(** * AtomicModel: uatomic.h, atomic objects shared by any number of threads.

    The members of [atomic<T>] and [atomic_flag] are one call each of a gcc
    builtin on the member [_v]; the builtins are taken with the contract of the
    gcc manual ("Built-in Functions for Memory Model Aware Atomic Operations").
    T is an integer type of [w] bits, its values are the numbers below 2^w.

    Threads take turns in any order; one turn performs one builtin, or one plain
    load or store.  Simplification: all turns see one memory (sequential
    consistency).  For one atomic object this is what every memory_order gives;
    for the plain variable guarded by an atomic_flag it is what the default
    arguments (memory_order_seq_cst) give.  Weaker orders across several objects
    are not modelled. *)
From Verif Require Import Base.
From Coq Require Import ZArith.
Open Scope Z_scope.

(** uatomic.h:14-21 *)
Inductive memory_order := Relaxed | Consume | Acquire | Release | AcqRel | SeqCst.

(** The arithmetic of the fetch_op builtins. *)
Inductive arith := Add | Sub | And | Or | Xor.

Definition arith_on (w : Z) (f : arith) (a b : Z) : Z :=
  match f with
  | Add => (a + b) mod 2 ^ w
  | Sub => (a - b) mod 2 ^ w
  | And => Z.land a b
  | Or => Z.lor a b
  | Xor => Z.lxor a b
  end.

(** The builtins of gcc used by uatomic.h, and plain accesses. *)
Inductive builtin :=
| ALoad (o : memory_order)
| AStore (v : Z) (o : memory_order)
| AExchange (v : Z) (o : memory_order)
| ACompareExchange (expected desired : Z) (weak : bool) (success failure : memory_order)
| AFetchOp (f : arith) (v : Z) (o : memory_order)
| AOpFetch (f : arith) (v : Z) (o : memory_order)
| ATestAndSet (o : memory_order)
| AClear (o : memory_order)
| PlainLoad
| PlainStore (v : Z).

(** Which orders the gcc manual allows. *)
Definition order_allowed (b : builtin) : bool :=
  match b with
  | ALoad o => match o with Release | AcqRel => false | _ => true end
  | AStore _ o | AClear o => match o with Consume | Acquire | AcqRel => false | _ => true end
  | ACompareExchange _ _ _ _ fo => match fo with Release | AcqRel => false | _ => true end
  | _ => true
  end.

(** What a call gives back: a value (for compare_exchange the new contents of
    [expected]) and a truth value (compare_exchange, test_and_set). *)
Record reply := Reply { rval : Z; rflag : bool }.

(** One builtin on an object containing [m].  [spurious]: a weak
    compare_exchange may fail although the values agree. *)
Definition exec (w : Z) (b : builtin) (spurious : bool) (m : Z) : outcome (Z * reply) :=
  if negb (order_allowed b) then UB else
  match b with
  | ALoad _ | PlainLoad => Ok (m, Reply m false)
  | AStore v _ | PlainStore v => Ok (v, Reply 0 false)
  | AExchange v _ => Ok (v, Reply m false)
  | ACompareExchange e d weak _ _ =>
      if (m =? e) && negb (weak && spurious) then Ok (d, Reply e true)
      else Ok (m, Reply m false)
  | AFetchOp f v _ => Ok (arith_on w f m v, Reply m false)
  | AOpFetch f v _ => Ok (arith_on w f m v, Reply (arith_on w f m v) false)
  | ATestAndSet _ => Ok (1, Reply 0 (negb (m =? 0)))
  | AClear _ => Ok (0, Reply 0 false)
  end.

(** ** Members of atomic<T>. *)

(** uatomic.h:36-37 *)
Definition store (v : Z) (o : memory_order) := AStore v o.
(** uatomic.h:38-39 *)
Definition load (o : memory_order) := ALoad o.
(** uatomic.h:40-41 *)
Definition exchange (v : Z) (o : memory_order) := AExchange v o.
(** uatomic.h:42-43, the overload with one order *)
Definition compare_exchange_weak (e d : Z) (o : memory_order) := ACompareExchange e d true o o.
(** uatomic.h:44-45 *)
Definition compare_exchange_weak2 (e d : Z) (so fo : memory_order) := ACompareExchange e d true so fo.
(** uatomic.h:46-47 *)
Definition compare_exchange_strong (e d : Z) (so fo : memory_order) := ACompareExchange e d false so fo.
(** uatomic.h:48-49 *)
Definition fetch_add (v : Z) (o : memory_order) := AFetchOp Add v o.
(** uatomic.h:50-51 *)
Definition fetch_sub (v : Z) (o : memory_order) := AFetchOp Sub v o.
(** uatomic.h:52-53 *)
Definition fetch_and (v : Z) (o : memory_order) := AFetchOp And v o.
(** uatomic.h:54-55 *)
Definition fetch_or (v : Z) (o : memory_order) := AFetchOp Or v o.
(** uatomic.h:56-57 *)
Definition fetch_xor (v : Z) (o : memory_order) := AFetchOp Xor v o.
(** uatomic.h:58-59 *)
Definition add_fetch (v : Z) (o : memory_order) := AOpFetch Add v o.
(** uatomic.h:60-61 *)
Definition sub_fetch (v : Z) (o : memory_order) := AOpFetch Sub v o.
(** uatomic.h:62-63 *)
Definition and_fetch (v : Z) (o : memory_order) := AOpFetch And v o.
(** uatomic.h:64-65 *)
Definition or_fetch (v : Z) (o : memory_order) := AOpFetch Or v o.
(** uatomic.h:66-67 *)
Definition xor_fetch (v : Z) (o : memory_order) := AOpFetch Xor v o.
(** uatomic.h:68, the conversion to T *)
Definition to_value := load SeqCst.
(** uatomic.h:69 *)
Definition assign (v : Z) := store v SeqCst.
(** uatomic.h:72-78, the operators that return the object itself; reading their
    value is a further [to_value]. *)
Definition pre_increment := add_fetch 1 SeqCst.
Definition pre_decrement := sub_fetch 1 SeqCst.
Definition add_assign (v : Z) := add_fetch v SeqCst.
Definition sub_assign (v : Z) := sub_fetch v SeqCst.
Definition and_assign (v : Z) := and_fetch v SeqCst.
Definition or_assign (v : Z) := or_fetch v SeqCst.
Definition xor_assign (v : Z) := xor_fetch v SeqCst.

(** uatomic.h:92-95, atomic_flag *)
Definition flag_clear (o : memory_order) := AClear o.
Definition flag_test_and_set (o : memory_order) := ATestAndSet o.

(** ** Threads. *)

(** The code of a thread as a function of its local state: the object it
    accesses next, how, and the local state after the reply; [None] at its end. *)
Definition code (L : Type) := L -> option (nat * builtin * (reply -> L)).

Record conf (L : Type) := Conf { cmem : list Z; cths : list L }.
Arguments Conf {L} cmem cths.
Arguments cmem {L} c.
Arguments cths {L} c.

(** A turn of thread [fst t]; [snd t]: does a weak exchange fail spuriously. *)
Definition turn {L} (w : Z) (cd : code L) (t : nat * bool) (c : conf L) : outcome (conf L) :=
  match nth_error (cths c) (fst t) with
  | None => Ok c
  | Some l =>
      match cd l with
      | None => Ok c
      | Some (a, b, k) =>
          m <- rd (cmem c) a ;;
          ' (m', r) <- exec w b (snd t) m ;;
          mem' <- wr (cmem c) a m' ;;
          ths' <- wr (cths c) (fst t) (k r) ;;
          Ok (Conf mem' ths')
      end
  end.

Fixpoint turns {L} (w : Z) (cd : code L) (sched : list (nat * bool)) (c : conf L) : outcome (conf L) :=
  match sched with
  | [] => Ok c
  | t :: r => c' <- turn w cd t c ;; turns w cd r c'
  end.

(** ** Programs of users, built from the members. *)

(** One call of a member of an atomic<T>. *)
Inductive acall :=
| CLoad | CStore (v : Z) | CExchange (v : Z)
| CFetchAdd (v : Z) | CFetchSub (v : Z) | CFetchAnd (v : Z) | CFetchOr (v : Z) | CFetchXor (v : Z)
| CAddFetch (v : Z) | CSubFetch (v : Z) | CAndFetch (v : Z) | COrFetch (v : Z) | CXorFetch (v : Z)
| CCompareExchange (e d : Z).

Definition member (a : acall) : builtin :=
  match a with
  | CLoad => load SeqCst
  | CStore v => store v SeqCst
  | CExchange v => exchange v SeqCst
  | CFetchAdd v => fetch_add v SeqCst
  | CFetchSub v => fetch_sub v SeqCst
  | CFetchAnd v => fetch_and v SeqCst
  | CFetchOr v => fetch_or v SeqCst
  | CFetchXor v => fetch_xor v SeqCst
  | CAddFetch v => add_fetch v SeqCst
  | CSubFetch v => sub_fetch v SeqCst
  | CAndFetch v => and_fetch v SeqCst
  | COrFetch v => or_fetch v SeqCst
  | CXorFetch v => xor_fetch v SeqCst
  | CCompareExchange e d => compare_exchange_strong e d SeqCst SeqCst
  end.

(** A thread that makes the calls of a list and keeps what they return. *)
Record caller := Caller { todo : list acall; got : list reply }.

Definition caller_code : code caller := fun l =>
  match todo l with
  | [] => None
  | a :: r => Some (0%nat, member a, fun x => Caller r (got l ++ [x]))
  end.

(** A thread that updates the object by functions f with the usual loop
      e = a; do { d = f(e); } while (!a.compare_exchange_weak (e, d)); *)
Inductive cas_phase := CasStart | CasHave (e : Z).
Record updater := Updater { uphase : cas_phase; utodo : list (Z -> Z); ugot : list Z }.

Definition updater_code (w : Z) : code updater := fun l =>
  match utodo l with
  | [] => None
  | f :: r =>
      match uphase l with
      | CasStart => Some (0%nat, to_value, fun x => Updater (CasHave (rval x)) (f :: r) (ugot l))
      | CasHave e =>
          Some (0%nat, compare_exchange_weak e (f e mod 2 ^ w) SeqCst,
                fun x => if rflag x then Updater CasStart r (ugot l ++ [e])
                         else Updater (CasHave (rval x)) (f :: r) (ugot l))
      end
  end.

(** A thread that updates a plain variable (object 1) by functions f, each time
    under a spin lock (object 0):
      while (lock.test_and_set()) {}  v = x;  x = f(v);  lock.clear(); *)
Inductive lock_phase := Outside | Entered | HasRead (v : Z) | Leaving.
Record locker := Locker { lphase : lock_phase; ltodo : list (Z -> Z); lgot : list Z }.

Definition locker_code : code locker := fun l =>
  match lphase l with
  | Leaving => Some (0%nat, flag_clear SeqCst, fun _ => Locker Outside (ltodo l) (lgot l))
  | ph =>
      match ltodo l with
      | [] => None
      | f :: r =>
          match ph with
          | HasRead v => Some (1%nat, PlainStore (f v), fun _ => Locker Leaving r (lgot l ++ [v]))
          | Entered => Some (1%nat, PlainLoad, fun x => Locker (HasRead (rval x)) (f :: r) (lgot l))
          | _ => Some (0%nat, flag_test_and_set SeqCst,
                       fun x => if rflag x then Locker Outside (f :: r) (lgot l)
                                else Locker Entered (f :: r) (lgot l))
          end
      end
  end.

(** A thread that executes  v = ++a;  a number of times: uatomic.h:72 returns
    the object, whose conversion to T (line 68) is a second access. *)
Record incer := Incer { ipending : bool; itodo : nat; igot : list Z }.

Definition incer_code : code incer := fun l =>
  if ipending l then Some (0%nat, to_value, fun x => Incer false (itodo l) (igot l ++ [rval x]))
  else match itodo l with
       | O => None
       | S k => Some (0%nat, pre_increment, fun _ => Incer true k (igot l))
       end.
