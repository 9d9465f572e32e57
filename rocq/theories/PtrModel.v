(** * PtrModel: the smart pointers of umemory.h, and the atomic counter of
    uatomic.h they use.

    Objects are numbers; [None] is the null pointer.  The program's pointer
    variables are numbered; a variable is [None] while it is not constructed.
    Every operation returns the objects it deletes, in order, and a value. *)
From Verif Require Import Base.
From Coq Require Import ZArith.

Definition obj := nat.
Inductive pval : Type :=
| PNone
| PPtr (p : option obj)     (* a raw pointer *)
| PNum (n : Z).             (* use_count *)
Definition pres : Type := list obj * pval.

(** delete p, for a pointer that may be null. *)
Definition del (p : option obj) : list obj := match p with Some o => [o] | None => [] end.

(** A variable that must be constructed, one that must not be. *)
Definition live {A} (vs : list (option A)) (i : nat) : outcome A :=
  v <- rd vs i ;; match v with Some x => Ok x | None => UB end.
Definition vacant {A} (vs : list (option A)) (i : nat) : outcome unit :=
  v <- rd vs i ;; match v with None => Ok tt | Some _ => UB end.
Definition set {A} (vs : list (option A)) (i : nat) (x : option A) : outcome (list (option A)) := wr vs i x.

(** ** shared_ptr (umemory.h:163-209) *)

(** umemory.h:169-174 [container]: the object and the count. *)
Record cont := C { c_obj : option obj; c_refs : Z }.
(** The containers ever allocated ([None]: deleted) and the variables (_p). *)
Record shst := Sh { sh_conts : list (option cont); sh_vars : list (option (option nat)) }.

Inductive shop : Type :=
| ShDef (i : nat)                     (* shared_ptr<T> i; *)
| ShOf (i : nat) (p : option obj)     (* shared_ptr<T> i (p); *)
| ShCopy (i j : nat)                  (* shared_ptr<T> i (j); *)
| ShMove (i j : nat)                  (* shared_ptr<T> i (move (j)); *)
| ShReset (i : nat) (p : option obj)  (* i.reset (p); or i = p; *)
| ShAssignMove (i j : nat)            (* i = move (j); *)
| ShSwap (i j : nat)
| ShDestroy (i : nat)                 (* the end of i's life *)
| ShCount (i : nat)                   (* i.use_count() *)
| ShGet (i : nat).                    (* i.get() *)

(** Following a container pointer; a deleted container is undefined behaviour. *)
Definition deref (cs : list (option cont)) (c : nat) : outcome cont := live cs c.

(** new container (p): umemory.h:172. *)
Definition new_cont (cs : list (option cont)) (p : option obj) : list (option cont) * nat :=
  (cs ++ [Some (C p 1)], length cs).

(** umemory.h:188-189 [if (ov && !--ov->refs) delete ov] with the destructor
    of container (173; the assertion holds here).  size_t wraps. *)
Definition unref (cs : list (option cont)) (ov : option nat) : outcome (list (option cont) * list obj) :=
  match ov with
  | None => Ok (cs, [])
  | Some c =>
      k <- deref cs c ;;
      let r := ((c_refs k - 1) mod 2 ^ 64)%Z in
      if Z.eqb r 0 then cs' <- set cs c None ;; Ok (cs', del (c_obj k))
      else cs' <- set cs c (Some (C (c_obj k) r)) ;; Ok (cs', [])
  end.
(** ++_p->refs *)
Definition addref (cs : list (option cont)) (p : option nat) : outcome (list (option cont)) :=
  match p with
  | None => Ok cs
  | Some c => k <- deref cs c ;; set cs c (Some (C (c_obj k) ((c_refs k + 1) mod 2 ^ 64)%Z))
  end.
(** umemory.h:183 [get], 181 [use_count] (container: 169-174). *)
Definition sh_get (cs : list (option cont)) (p : option nat) : outcome (option obj) :=
  match p with None => Ok None | Some c => k <- deref cs c ;; Ok (c_obj k) end.
Definition sh_count (cs : list (option cont)) (p : option nat) : outcome Z :=
  match p with None => Ok 0%Z | Some c => k <- deref cs c ;; Ok (c_refs k) end.

(** umemory.h:184-190 [reset (p)].  The assertion of 185 (p is not already the
    pointer held, or null) is undefined behaviour when it fails: with it
    compiled out, the object would be deleted while held. *)
Definition sh_reset (s : shst) (i : nat) (p : option obj) : outcome (shst * list obj) :=
  ov <- live (sh_vars s) i ;;
  g <- sh_get (sh_conts s) ov ;;
  if match p, g with Some a, Some b => Nat.eqb a b | _, _ => false end then UB else
  let '(cs, np) := match p with
                   | Some _ => let (cs, c) := new_cont (sh_conts s) p in (cs, Some c)
                   | None => (sh_conts s, None) end in
  vs <- set (sh_vars s) i (Some np) ;;
  ' (cs', d) <- unref cs ov ;;
  Ok (Sh cs' vs, d).

Definition sh_step (s : shst) (o : shop) : outcome (shst * pres) :=
  match o with
  | ShDef i =>                          (* umemory.h:176 *)
      _ <- vacant (sh_vars s) i ;; vs <- set (sh_vars s) i (Some None) ;; Ok (Sh (sh_conts s) vs, ([], PNone))
  | ShOf i p =>                         (* umemory.h:177: a container even for null *)
      _ <- vacant (sh_vars s) i ;;
      let (cs, c) := new_cont (sh_conts s) p in
      vs <- set (sh_vars s) i (Some (Some c)) ;; Ok (Sh cs vs, ([], PNone))
  | ShMove i j =>                       (* umemory.h:178 *)
      _ <- vacant (sh_vars s) i ;; p <- live (sh_vars s) j ;;
      vs <- set (sh_vars s) i (Some p) ;; vs <- set vs j (Some None) ;; Ok (Sh (sh_conts s) vs, ([], PNone))
  | ShCopy i j =>                       (* umemory.h:179 *)
      _ <- vacant (sh_vars s) i ;; p <- live (sh_vars s) j ;;
      cs <- addref (sh_conts s) p ;;
      vs <- set (sh_vars s) i (Some p) ;; Ok (Sh cs vs, ([], PNone))
  | ShDestroy i =>                      (* umemory.h:180 *)
      ' (s', d) <- sh_reset s i None ;; vs <- set (sh_vars s') i None ;; Ok (Sh (sh_conts s') vs, (d, PNone))
  | ShReset i p => ' (s', d) <- sh_reset s i p ;; Ok (s', (d, PNone))
  | ShSwap i j | ShAssignMove i j =>    (* umemory.h:191, 194: move assignment swaps *)
      p <- live (sh_vars s) i ;; q <- live (sh_vars s) j ;;
      vs <- set (sh_vars s) i (Some q) ;; vs <- set vs j (Some p) ;; Ok (Sh (sh_conts s) vs, ([], PNone))
  | ShCount i => p <- live (sh_vars s) i ;; n <- sh_count (sh_conts s) p ;; Ok (s, ([], PNum n))
  | ShGet i => p <- live (sh_vars s) i ;; r <- sh_get (sh_conts s) p ;; Ok (s, ([], PPtr r))
  end.
(** Not modelled: operator= (const shared_ptr&) (umemory.h:195), which does not
    compile when used: it assigns a shared_ptr to the container pointer. *)

(** ** auto_ptr (umemory.h:28-57), unique_ptr (70-99) and unique_ptr<T[]> (102-131) *)
Inductive flavour := Auto | Uniq | UniqArray (asserts : bool).
Inductive uop : Type :=
| UOf (i : nat) (p : option obj)      (* constructor from a raw pointer *)
| UMove (i j : nat)                   (* constructor from (move of) j *)
| UReset (i : nat) (p : option obj)   (* i.reset (p) or i = p *)
| UAssign (i j : nat)                 (* i = move (j) (auto_ptr: i = j) *)
| URelease (i : nat)
| USwap (i j : nat)                   (* not auto_ptr *)
| UDestroy (i : nat)
| UGet (i : nat).
Definition ust := list (option (option obj)).

(** umemory.h: auto_ptr 45, unique_ptr 83, unique_ptr<T[]> 115 [reset (p)]: the new _p and
    what is deleted.  A failing assertion is undefined behaviour. *)
Definition u_reset (f : flavour) (cur p : option obj) : outcome (option obj * list obj) :=
  let same := match cur, p with
              | Some a, Some b => Nat.eqb a b
              | None, None => true
              | _, _ => false end in
  match f with
  | Auto => if same then Ok (cur, []) else Ok (p, del cur)
  | Uniq => if same && match p with Some _ => true | None => false end then UB else Ok (p, del cur)
  | UniqArray asserts =>
      if same && (asserts || match p with Some _ => true | None => false end) then UB else Ok (p, del cur)
  end.
Definition u_step (f : flavour) (vs : ust) (o : uop) : outcome (ust * pres) :=
  match o with
  | UOf i p => _ <- vacant vs i ;; vs <- set vs i (Some p) ;; Ok (vs, ([], PNone))
  | UMove i j =>                        (* umemory.h:37, 78, 110: _p (p.release()) *)
      _ <- vacant vs i ;; p <- live vs j ;; vs <- set vs j (Some None) ;;
      vs <- set vs i (Some p) ;; Ok (vs, ([], PNone))
  | UReset i p =>
      cur <- live vs i ;; ' (n, d) <- u_reset f cur p ;; vs <- set vs i (Some n) ;; Ok (vs, (d, PNone))
  | UAssign i j =>                      (* umemory.h:49, 87, 119: reset (p.release()) *)
      p <- live vs j ;; vs <- set vs j (Some None) ;;
      cur <- live vs i ;; ' (n, d) <- u_reset f cur p ;; vs <- set vs i (Some n) ;; Ok (vs, (d, PNone))
  | URelease i => p <- live vs i ;; vs <- set vs i (Some None) ;; Ok (vs, ([], PPtr p))
  | USwap i j =>
      p <- live vs i ;; q <- live vs j ;; vs <- set vs i (Some q) ;; vs <- set vs j (Some p) ;; Ok (vs, ([], PNone))
  | UDestroy i => p <- live vs i ;; vs <- set vs i None ;; Ok (vs, (del p, PNone))
  | UGet i => p <- live vs i ;; Ok (vs, ([], PPtr p))
  end.

(** ** unique_resource (umemory.h:243-285) and scope_exit (219-231).
    A resource is a number, and so is a deleter; what an operation disposes of
    is recorded as (deleter, resource).  A scope_exit is a unique_resource
    without a resource to name: its function is the deleter. *)
Record ures := R { r_res : nat; r_del : nat; r_on : bool }.
Inductive rop : Type :=
| ROf (i : nat) (r d : nat) (on : bool)  (* constructor *)
| RMove (i j : nat)                      (* move constructor *)
| RReset (i : nat)                       (* reset() *)
| RResetTo (i : nat) (r : nat)           (* reset (r) *)
| RAssign (i j : nat)                    (* i = move (j) *)
| RRelease (i : nat)
| RDestroy (i : nat).
Definition rst := list (option ures).
Definition r_reset (x : ures) : ures * list (nat * nat) :=    (* umemory.h:255-260 *)
  if r_on x then (R (r_res x) (r_del x) false, [(r_del x, r_res x)]) else (x, []).
Definition r_release (x : ures) : ures := R (r_res x) (r_del x) false.   (* umemory.h:254, 223 *)
Definition r_step (vs : rst) (o : rop) : outcome (rst * list (nat * nat)) :=
  match o with
  | ROf i r d on => _ <- vacant vs i ;; vs <- set vs i (Some (R r d on)) ;; Ok (vs, [])
  | RMove i j =>                         (* umemory.h:247-248, 222; the moved-from values are the old ones *)
      _ <- vacant vs i ;; x <- live vs j ;; vs <- set vs i (Some x) ;; vs <- set vs j (Some (r_release x)) ;; Ok (vs, [])
  | RReset i => x <- live vs i ;; let (x', d) := r_reset x in vs <- set vs i (Some x') ;; Ok (vs, d)
  | RResetTo i r =>                      (* umemory.h:261-265 *)
      x <- live vs i ;; let (x', d) := r_reset x in
      vs <- set vs i (Some (R r (r_del x') true)) ;; Ok (vs, d)
  | RAssign i j =>                       (* umemory.h:267-274, assigning member after member *)
      x <- live vs i ;; let (x', d) := r_reset x in
      vs <- set vs i (Some x') ;; y <- live vs j ;;
      vs <- set vs i (Some (R (r_res y) (r_del y) (r_on y))) ;;
      y <- live vs j ;; vs <- set vs j (Some (r_release y)) ;; Ok (vs, d)
  | RRelease i => x <- live vs i ;; vs <- set vs i (Some (r_release x)) ;; Ok (vs, [])
  | RDestroy i => x <- live vs i ;; let (_, d) := r_reset x in vs <- set vs i None ;; Ok (vs, d)
  end.

(** ** The count under concurrency.

    Threads hold shared_ptrs to one object.  [++refs] (uatomic.h:72) is one
    atomic step.  [!--ov->refs] is two: [operator--] (73) performs sub_fetch
    and returns a reference to the atomic, from which [operator T] (68) then
    loads; [delete] follows. *)
Inductive pc := Idle | Loading | Deleting.
Record thread := Th { t_own : nat; t_pc : pc }.
Record cst := Cs { k_refs : Z; k_alive : bool; k_deleted : nat; k_thr : list thread }.
Inductive act :=
| Copy       (* copy construct from an owned pointer *)
| Dec        (* the sub_fetch of reset() or of the destructor *)
| Load       (* the load after it *)
| Delete.    (* delete ov, if zero was loaded *)
(** One step of thread [t]; a step that is not the thread's next is skipped. *)
Definition c_step (s : cst) (t : nat) (a : act) : outcome cst :=
  th <- rd (k_thr s) t ;;
  match a, t_pc th with
  | Copy, Idle =>
      if Nat.eqb (t_own th) 0 then Ok s
      else if k_alive s then
        ths <- wr (k_thr s) t (Th (t_own th + 1) Idle) ;; Ok (Cs (k_refs s + 1) true (k_deleted s) ths)
      else UB
  | Dec, Idle =>
      if Nat.eqb (t_own th) 0 then Ok s
      else if k_alive s then
        ths <- wr (k_thr s) t (Th (t_own th - 1) Loading) ;; Ok (Cs (k_refs s - 1) true (k_deleted s) ths)
      else UB
  | Load, Loading =>
      if k_alive s then
        ths <- wr (k_thr s) t (Th (t_own th) (if Z.eqb (k_refs s) 0 then Deleting else Idle)) ;;
        Ok (Cs (k_refs s) true (k_deleted s) ths)
      else UB
  | Delete, Deleting =>
      if k_alive s then
        ths <- wr (k_thr s) t (Th (t_own th) Idle) ;; Ok (Cs (k_refs s) false (k_deleted s + 1) ths)
      else UB
  | _, _ => Ok s
  end.
Fixpoint c_run (s : cst) (sched : list (nat * act)) : outcome cst :=
  match sched with
  | [] => Ok s
  | (t, a) :: rest => s' <- c_step s t a ;; c_run s' rest
  end.
