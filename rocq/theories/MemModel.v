(** * MemModel: a heap of byte blocks; cmemlink, memlink and memblock.

    The heap is a list of blocks; a pointer is a block number and an offset.
    Every allocation gets a new block number, so realloc always moves: what
    remains of an old pointer is dangling ([Freed]).  [None] in a cell is an
    indeterminate byte; it may be copied but not compared.
    Blocks the library did not allocate are [Foreign] (the caller's writable
    memory) or [Literal] (read-only, string literals). *)
From Verif Require Import Base UtilModel StoreModel.
From Coq Require Import ZArith.
Local Open Scope Z_scope.

Inductive kind : Type := Owned | Foreign | Literal | Freed.
Record blk := mkblk { bcells : list (option Z); bbase : Z; bkind : kind }.
Definition heap : Type := list blk.
Definition ptr : Type := option (nat * Z).      (* [None]: nullptr *)

Definition readable (k : kind) : bool := match k with Freed => false | _ => true end.
Definition writable (k : kind) : bool := match k with Owned | Foreign => true | _ => false end.
Definition in_range (o n : Z) (cells : list (option Z)) : bool :=
  (0 <=? o) && (0 <=? n) && (o + n <=? Z.of_nat (length cells)).

(** Reading [n] bytes at [p] (memory access of the C++ machine). *)
Definition load_n (h : heap) (p : ptr) (n : Z) : outcome (list (option Z)) :=
  if n =? 0 then Ok [] else
  match p with
  | None => UB
  | Some (b, o) =>
      k <- rd h b ;;
      if readable (bkind k) && in_range o n (bcells k)
      then Ok (slice (bcells k) (Z.to_nat o) (Z.to_nat (o + n))) else UB
  end.
(** Writing the bytes [l] at [p]. *)
Definition store_n (h : heap) (p : ptr) (l : list (option Z)) : outcome heap :=
  match l with
  | [] => Ok h
  | _ =>
      match p with
      | None => UB
      | Some (b, o) =>
          k <- rd h b ;;
          if writable (bkind k) && in_range o (Z.of_nat (length l)) (bcells k)
          then wr h b (mkblk (firstn (Z.to_nat o) (bcells k) ++ l ++
                              skipn (Z.to_nat o + length l) (bcells k)) (bbase k) (bkind k))
          else UB
      end
  end.
Definition padd (p : ptr) (i : Z) : ptr :=
  match p with Some (b, o) => Some (b, o + i) | None => None end.

(** free(3). *)
Definition free (h : heap) (p : ptr) : outcome heap :=
  match p with
  | None => Ok h
  | Some (b, o) =>
      k <- rd h b ;;
      match bkind k with
      | Owned => if o =? 0 then wr h b (mkblk (bcells k) (bbase k) Freed) else UB
      | _ => UB
      end
  end.
Section WithEnv.
  Variable e : env.

  Definition push_blk (h : heap) (cells : list (option Z)) : heap * ptr :=
    (h ++ [mkblk cells (malloc_at e (Z.of_nat (length cells))) Owned], Some (length h, 0)).
  (** realloc(3) as glibc does it: of nullptr is malloc, to size 0 is free;
      failure leaves the block and is reported as the exception the callers
      throw. *)
  Definition realloc (h : heap) (p : ptr) (n : Z) : outcome (heap * ptr) :=
    match p with
    | None => if malloc_ok e n then Ok (push_blk h (repeat None (Z.to_nat n))) else Exn bad_alloc
    | Some (b, o) =>
        k <- rd h b ;;
        if n =? 0 then h' <- free h p ;; Ok (h', None)
        else if malloc_ok e n then
          h' <- free h p ;; Ok (push_blk h' (realloc_cells (bcells k) (Z.to_nat n)))
        else Exn bad_alloc
    end.

  (** ualgobase.h:226-230 [copy_n] on char pointers: copy_n_fast.  The regions
      here lie in different blocks, or are the same: C21 shows that it then
      copies the bytes. *)
  Definition copy_n (h : heap) (src : ptr) (n : Z) (dst : ptr) : outcome heap :=
    l <- load_n h src n ;; store_n h dst l.
  (** ualgobase.h:231-236 [fill_n]. *)
  Definition fill_n (h : heap) (dst : ptr) (n : Z) (c : Z) : outcome heap :=
    store_n h dst (repeat (Some c) (Z.to_nat n)).
  (** ualgo.h:218-223 [rotate] on [p+f, p+m, p+l): rotate_fast (ualgobase.cc),
      which returns at once if one of the halves is empty. *)
  Definition rotate (h : heap) (p : ptr) (f m l : Z) : outcome heap :=
    if (m =? f) || (l =? m) then Ok h else
    match p with
    | None => UB
    | Some (b, o) =>
        k <- rd h b ;;
        if writable (bkind k) && (0 <=? o + f) && (f <=? m) && (m <=? l) && (o + l <=? Z.of_nat (length (bcells k))) then
          cells <- rotate_cells e 1 (bbase k) (bcells k) (Z.to_nat (o + f)) (Z.to_nat (o + m)) (Z.to_nat (o + l)) ;;
          wr h b (mkblk cells (bbase k) (bkind k))
        else UB
    end.

  (** memblock.h:21-60, cmemlink.h:80-81: [_data], [_size], [_capacity]. *)
  Record mb := mkmb { mptr : ptr; msize : Z; mcap : Z }.
  Definition mb_nil : mb := mkmb None 0 0.                      (* memblock.h:23 *)
  Definition is_linked (m : mb) : bool := mcap m =? 0.          (* memblock.h:43 *)

  (** minimumFreeCapacity(): 0 for memblock (memblock.h:57), 1 for string
      (ustring.cc:395). *)
  Variable mfc : Z.

  (** cmemlink.cc:18-24 [link]; the virtual unlink is memblock.cc:21-25, which
      forgets the capacity without freeing. *)
  Definition link (p : ptr) (n : Z) : outcome mb :=
    match p with
    | None => if n =? 0 then Ok (mkmb None 0 0) else Exn bad_alloc
    | _ => Ok (mkmb p n 0)
    end.
  (** memblock.cc:36-44 [deallocate]. *)
  Definition deallocate (h : heap) (m : mb) : outcome (heap * mb) :=
    if mcap m =? 0 then Ok (h, mb_nil)
    else h' <- free h (mptr m) ;; Ok (h', mb_nil).
  (** memblock.cc:48-54 [manage]. *)
  Definition manage (p : ptr) (n : Z) : outcome mb :=
    m <- link p n ;; Ok (mkmb (mptr m) (msize m) n).
  (** memblock.cc:80-95 [reserve]. *)
  Definition reserve (h : heap) (m : mb) (n : Z) (exact : bool) : outcome (heap * mb) :=
    let ns := u64 (n + mfc) in
    if ns <=? mcap m then Ok (h, m) else
    let old := if is_linked m then None else mptr m in
    let ns := if exact then ns else next_pow2 ns in
    ' (h, nb) <- realloc h old ns ;;
    h <- (match old, mptr m with
          | None, Some _ => copy_n h (mptr m) (Z.min (u64 (msize m + 1)) ns) nb
          | _, _ => Ok h
          end) ;;
    m' <- link nb (msize m) ;;
    Ok (h, mkmb (mptr m') (msize m') ns).
  (** memblock.cc:28-33 [resize]. *)
  Definition resize (h : heap) (m : mb) (n : Z) (exact : bool) : outcome (heap * mb) :=
    ' (h, m) <- (if mcap m <? u64 (n + mfc) then reserve h m n exact else Ok (h, m)) ;;
    Ok (h, mkmb (mptr m) n (mcap m)).
  (** memblock.cc:57-60 [copy_link]. *)
  Definition copy_link (h : heap) (m : mb) : outcome (heap * mb) := reserve h m (msize m) false.
  (** memblock.cc:63-68 [assign]. *)
  Definition assign (h : heap) (m : mb) (p : ptr) (n : Z) : outcome (heap * mb) :=
    ' (h, m) <- resize h m n true ;;
    h <- copy_n h p n (mptr m) ;;
    Ok (h, m).
  (** memblock.cc:98-107 [shrink_to_fit]. *)
  Definition shrink_to_fit (h : heap) (m : mb) : outcome (heap * mb) :=
    if is_linked m then Ok (h, m) else
    ' (h, nb) <- realloc h (mptr m) (msize m) ;;
    Ok (h, mkmb nb (msize m) (msize m)).
  (** memblock.cc:110-117 [insert] with memlink.h:75-82. *)
  Definition insert (h : heap) (m : mb) (ip n : Z) : outcome (heap * mb) :=
    ' (h, m) <- resize h m (u64 (msize m + n)) false ;;
    h <- rotate h (mptr m) ip (msize m - n) (msize m) ;;
    Ok (h, m).
  (** memblock.cc:120-129 [erase] with memlink.h:86-93. *)
  Definition erase (h : heap) (m : mb) (ep n : Z) : outcome (heap * mb) :=
    ' (h, m) <- reserve h m (msize m) false ;;
    h <- rotate h (mptr m) ep (ep + n) (msize m) ;;
    Ok (h, mkmb (mptr m) (msize m - n) (mcap m)).
  (** memblock.h:41 [clear]. *)
  Definition clear (h : heap) (m : mb) : outcome (heap * mb) := resize h m 0 true.
  (** Writing through data() after copy_link. *)
  Definition write_at (h : heap) (m : mb) (i : Z) (x : Z) : outcome (heap * mb) :=
    ' (h, m) <- copy_link h m ;;
    if (0 <=? i) && (i <? msize m) then
      h <- store_n h (padd (mptr m) i) [Some x] ;; Ok (h, m)
    else UB.
  (** begin() .. end() read back. *)
  Definition mb_bytes (h : heap) (m : mb) : outcome (list (option Z)) := load_n h (mptr m) (msize m).
End WithEnv.

(** cmemlink.h:61-62 [operator==] with memcmp: comparing an indeterminate byte
    is undefined; a comparison of no bytes reads nothing. *)
Fixpoint memcmp_eq (a b : list (option Z)) : outcome bool :=
  match a, b with
  | Some x :: s, Some y :: t => if x =? y then memcmp_eq s t else Ok false
  | [], [] => Ok true
  | _, _ => UB
  end.
Definition ptr_eqb (p q : ptr) : bool :=
  match p, q with
  | None, None => true
  | Some (b, o), Some (c, u) => Nat.eqb b c && (o =? u)
  | _, _ => false
  end.
Definition mb_eq (h : heap) (x y : mb) : outcome bool :=
  if negb (msize x =? msize y) then Ok false
  else if ptr_eqb (mptr x) (mptr y) then Ok true
  else a <- load_n h (mptr y) (msize y) ;; b <- load_n h (mptr x) (msize y) ;; memcmp_eq a b.

(** ** Histories over several memory blocks *)
Inductive mop : Type :=
| MAssign (i : nat) (p : ptr) (n : Z)       (* assign (p, n) from memory the blocks do not own *)
| MCopy (i j : nat)                         (* operator= (memblock), copy constructor: memblock.h:34, memblock.cc:18 *)
| MMove (i j : nat)                         (* move assignment: memblock.h:54 (swap) *)
| MSwap (i j : nat)                         (* memblock.h:35 *)
| MLink (i : nat) (p : ptr) (n : Z)         (* link (p, n) *)
| MDealloc (i : nat)                        (* deallocate, the destructor: memblock.cc:19 *)
| MManage (i : nat) (l : list Z)            (* p = malloc (n), filled by the caller; manage (p, n) *)
| MReserve (i : nat) (n : Z) (exact : bool)
| MResize (i : nat) (n : Z) (exact : bool)
| MCopyLink (i : nat)
| MShrink (i : nat)
| MInsert (i : nat) (ip n : Z)
| MErase (i : nat) (ep n : Z)
| MClear (i : nat)
| MWrite (i : nat) (pos : Z) (x : Z).

Definition mstate : Type := heap * list mb.

Section Run.
  Variable e : env.
  (** Apply an operation to block [i] (memblock: minimumFreeCapacity is 0). *)
  Definition on (s : mstate) (i : nat) (f : heap -> mb -> outcome (heap * mb)) : outcome mstate :=
    let (h, ms) := s in
    m <- rd ms i ;; ' (h', m') <- f h m ;; ms' <- wr ms i m' ;; Ok (h', ms').
  Definition swap_mb (s : mstate) (i j : nat) : outcome mstate :=
    let (h, ms) := s in
    a <- rd ms i ;; b <- rd ms j ;; ms <- wr ms i b ;; ms <- wr ms j a ;; Ok (h, ms).
  Definition mstep (s : mstate) (o : mop) : outcome mstate :=
    match o with
    | MAssign i p n => on s i (fun h m => assign e 0 h m p n)
    | MCopy i j => b <- rd (snd s) j ;; on s i (fun h m => assign e 0 h m (mptr b) (msize b))
    | MMove i j | MSwap i j => swap_mb s i j
    | MLink i p n => on s i (fun h m => m' <- link p n ;; Ok (h, m'))
    | MDealloc i => on s i deallocate
    | MManage i l =>
        on s i (fun h m =>
          ' (h, p) <- realloc e h None (Z.of_nat (length l)) ;;
          h <- store_n h p (map Some l) ;;
          m' <- manage p (Z.of_nat (length l)) ;; Ok (h, m'))
    | MReserve i n x => on s i (fun h m => reserve e 0 h m n x)
    | MResize i n x => on s i (fun h m => resize e 0 h m n x)
    | MCopyLink i => on s i (copy_link e 0)
    | MShrink i => on s i (shrink_to_fit e)
    | MInsert i ip n => on s i (fun h m => insert e 0 h m ip n)
    | MErase i ep n => on s i (fun h m => erase e 0 h m ep n)
    | MClear i => on s i (clear e 0)
    | MWrite i pos x => on s i (fun h m => write_at e 0 h m pos x)
    end.
  Fixpoint mrun (s : mstate) (ops : list mop) : outcome mstate :=
    match ops with
    | [] => Ok s
    | o :: t => s' <- mstep s o ;; mrun s' t
    end.
End Run.
