(** * MemSpec: what a history of memory block operations should do.

    A memory block is a list of bytes, [None] where the operations leave the
    byte unspecified.  Nothing here looks at pointers of the library, at
    capacities or at its heap; [h0] is the caller's memory. *)
From Coq Require Import List ZArith Bool.
From Verif Require Import Base StoreModel VectorSpec MemModel.
Local Open Scope Z_scope.

(** Actual bytes [l] are as specified by [s]. *)
Definition agrees (s l : list (option Z)) : Prop := Forall2 (fun x y => x = None \/ x = y) s l.

(** The caller's memory: nothing in it belongs to the library. *)
Definition callers (h0 : heap) : Prop := Forall (fun k => bkind k = Foreign \/ bkind k = Literal) h0.
(** The [n] bytes at [p] in the caller's memory. *)
Definition bytes_at (h0 : heap) (p : ptr) (n : Z) : list (option Z) :=
  match load_n h0 p n with Ok l => l | _ => [] end.
Definition can_read (h0 : heap) (p : ptr) (n : Z) : Prop := exists l, load_n h0 p n = Ok l.

Definition put {A} (l : list A) (i : nat) (x : A) : list A := firstn i l ++ x :: skipn (S i) l.
Definition get {A} (l : list (list A)) (i : nat) : list A := nth i l [].

Section Spec.
  Variable h0 : heap.
  Definition mspec_step (ss : list (list (option Z))) (o : mop) : list (list (option Z)) :=
    match o with
    | MAssign i p n | MLink i p n => put ss i (bytes_at h0 p n)
    | MCopy i j => put ss i (get ss j)
    | MMove i j | MSwap i j => put (put ss i (get ss j)) j (get ss i)
    | MDealloc i | MClear i => put ss i []
    | MManage i l => put ss i (map Some l)
    | MReserve _ _ _ | MCopyLink _ | MShrink _ => ss
    | MResize i n _ => put ss i (seq_resize (get ss i) (Z.to_nat n) None)
    | MInsert i ip n => put ss i (seq_insert (get ss i) (Z.to_nat ip) (repeat None (Z.to_nat n)))
    | MErase i ep n => put ss i (seq_erase (get ss i) (Z.to_nat ep) (Z.to_nat n))
    | MWrite i pos x => put ss i (put (get ss i) (Z.to_nat pos) (Some x))
    end.

  Definition len (ss : list (list (option Z))) (i : nat) : Z := Z.of_nat (length (get ss i)).
  (** What the caller has to respect: the block exists, positions are inside
      it, sizes do not exceed 2^31, sources are readable.  Three restrictions
      are the library's faults and show as refutations next to the theorem:
      [link] needs one readable byte after the linked ones, [reserve] must not
      ask for less than the size, and the byte moves of insert and erase must
      be among those the x86 routines get right. *)
  Definition mop_pre (ss : list (list (option Z))) (o : mop) : Prop :=
    match o with
    | MAssign i p n => (i < length ss)%nat /\ 0 <= n <= 2 ^ 31 /\ can_read h0 p n
    | MLink i p n => (i < length ss)%nat /\ 0 <= n <= 2 ^ 31 /\ ((p = None /\ n = 0) \/ can_read h0 p (n + 1))
    | MCopy i j | MMove i j | MSwap i j => (i < length ss)%nat /\ (j < length ss)%nat
    | MDealloc i | MClear i | MCopyLink i | MShrink i => (i < length ss)%nat
    | MManage i l => (i < length ss)%nat /\ l <> [] /\ Z.of_nat (length l) <= 2 ^ 31
    | MReserve i n _ => (i < length ss)%nat /\ len ss i <= n <= 2 ^ 31
    | MResize i n _ => (i < length ss)%nat /\ 0 <= n <= 2 ^ 31
    | MInsert i ip n => (i < length ss)%nat /\ 0 <= ip <= len ss i /\ 0 <= n /\ len ss i + n <= 2 ^ 31 /\
        (n = 0 \/ ip = len ss i \/ rot_good ip (len ss i) (len ss i + n) = true)
    | MErase i ep n => (i < length ss)%nat /\ 0 <= ep /\ 0 <= n /\ ep + n <= len ss i /\
        (n = 0 \/ ep + n = len ss i \/ rot_good ep (ep + n) (len ss i) = true)
    | MWrite i pos _ => (i < length ss)%nat /\ 0 <= pos < len ss i
    end.
  Fixpoint mspec_run (ss : list (list (option Z))) (ops : list mop) : list (list (option Z)) :=
    match ops with [] => ss | o :: t => mspec_run (mspec_step ss o) t end.
  Fixpoint mops_pre (ss : list (list (option Z))) (ops : list mop) : Prop :=
    match ops with [] => True | o :: t => mop_pre ss o /\ mops_pre (mspec_step ss o) t end.
End Spec.

(** link and manage are called only on blocks that own nothing (is_linked). *)
Definition polite_op (ms : list mb) (o : mop) : Prop :=
  match o with
  | MLink i _ _ | MManage i _ => forall m, nth_error ms i = Some m -> is_linked m = true
  | _ => True
  end.
Fixpoint polite (e : env) (s : mstate) (ops : list mop) : Prop :=
  match ops with
  | [] => True
  | o :: t => polite_op (snd s) o /\ forall s', mstep e s o = Ok s' -> polite e s' t
  end.

(** The storage of a block that owns some: allocated, not freed, from its
    first byte, of the capacity's length, and large enough. *)
Definition owns_storage (h : heap) (m : mb) : Prop :=
  is_linked m = false ->
  exists b k, mptr m = Some (b, 0) /\ nth_error h b = Some k /\ bkind k = Owned /\
    Z.of_nat (length (bcells k)) = mcap m /\ msize m <= mcap m.
(** A block is as specified: size, bytes read through it, storage. *)
Definition mresult (h : heap) (m : mb) (s : list (option Z)) : Prop :=
  msize m = Z.of_nat (length s) /\ (exists l, mb_bytes h m = Ok l /\ agrees s l) /\ owns_storage h m.
(** No allocated block is left. *)
Definition all_freed (h : heap) : Prop := Forall (fun k => bkind k <> Owned) h.
