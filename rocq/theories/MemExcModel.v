(** * MemExcModel: memory blocks and strings when allocations fail.

    The operations of MemModel and StringModel again, with what an exception
    leaves behind.  The world answers every call of realloc: [true] it
    succeeds, [false] it returns nullptr and leaves the old block; when the
    answers run out it succeeds.  Parts of an operation that cannot throw are
    those of MemModel and StringModel. *)
From Verif Require Import Base UtilModel StoreModel MemModel StringModel.
From Coq Require Import ZArith.
Local Open Scope Z_scope.

(** How a call ends: it returns, or throws bad_alloc. *)
Inductive mend : Type := Returned | NoMemory.

Record mw := mkmw { wh : heap; wm : mb; wans : list bool }.
Definition mact : Type := mw -> outcome (mw * mend).

Definition mdo (f : heap -> mb -> outcome (heap * mb)) : mact := fun s =>
  ' (h, m) <- f (wh s) (wm s) ;; Ok (mkmw h m (wans s), Returned).
Definition mthen (a b : mact) : mact := fun s =>
  ' (s', r) <- a s ;; match r with Returned => b s' | NoMemory => Ok (s', NoMemory) end.
(** An action that depends on the block as it is now. *)
Definition mget (k : heap -> mb -> mact) : mact := fun s => k (wh s) (wm s) s.
(** Does the next realloc succeed? *)
Definition ask (l : list bool) : bool * list bool := match l with [] => (true, []) | b :: t => (b, t) end.

Section WithEnv.
  Variable e : env.
  Variable mfc : Z.

  (** realloc(3) in an operation that throws bad_alloc when it fails; what
      follows the call is [k]. *)
  Definition m_realloc (p : ptr) (n : Z) (k : ptr -> mact) : mact := fun s =>
    let (b, t) := ask (wans s) in
    if b then ' (h, nb) <- realloc e (wh s) p n ;; k nb (mkmw h (wm s) t)
    else Ok (mkmw (wh s) (wm s) t, NoMemory).

  (** memblock.cc:80-95 [reserve]. *)
  Definition m_reserve (n : Z) (exact : bool) : mact := mget (fun _ m =>
    let ns := u64 (n + mfc) in
    if ns <=? mcap m then mdo (fun h m => Ok (h, m)) else
    let old := if is_linked m then None else mptr m in
    let ns := if exact then ns else next_pow2 ns in
    m_realloc old ns (fun nb => mdo (fun h m =>
      h <- (match old, mptr m with
            | None, Some _ => copy_n h (mptr m) (Z.min (u64 (msize m + 1)) ns) nb
            | _, _ => Ok h
            end) ;;
      m' <- link nb (msize m) ;;
      Ok (h, mkmb (mptr m') (msize m') ns)))).
  (** memblock.cc:28-33 [resize]. *)
  Definition m_resize (n : Z) (exact : bool) : mact :=
    mthen (mget (fun _ m => if mcap m <? u64 (n + mfc) then m_reserve n exact else mdo (fun h m => Ok (h, m))))
          (mdo (fun h m => Ok (h, mkmb (mptr m) n (mcap m)))).
  (** memblock.cc:57-60 [copy_link]. *)
  Definition m_copy_link : mact := mget (fun _ m => m_reserve (msize m) false).
  (** memblock.cc:63-68 [assign]. *)
  Definition m_assign (p : ptr) (n : Z) : mact :=
    mthen (m_resize n true) (mdo (fun h m => h <- copy_n h p n (mptr m) ;; Ok (h, m))).
  (** memblock.cc:98-107 [shrink_to_fit]; realloc to size 0 frees and is not a failure. *)
  Definition m_shrink : mact := mget (fun _ m =>
    if is_linked m then mdo (fun h m => Ok (h, m)) else
    if msize m =? 0 then mdo (fun h m => ' (h, nb) <- realloc e h (mptr m) (msize m) ;; Ok (h, mkmb nb (msize m) (msize m)))
    else m_realloc (mptr m) (msize m) (fun nb => mdo (fun h m => Ok (h, mkmb nb (msize m) (msize m))))).
  (** memblock.cc:110-117 [insert]. *)
  Definition m_insert (ip n : Z) : mact := mget (fun _ m =>
    mthen (m_resize (u64 (msize m + n)) false)
          (mdo (fun h m => h <- rotate e h (mptr m) ip (msize m - n) (msize m) ;; Ok (h, m)))).
  (** memblock.cc:120-129 [erase]. *)
  Definition m_erase (ep n : Z) : mact := mget (fun _ m =>
    mthen (m_reserve (msize m) false)
          (mdo (fun h m => h <- rotate e h (mptr m) ep (ep + n) (msize m) ;; Ok (h, mkmb (mptr m) (msize m - n) (mcap m))))).
  (** memblock.h:41 [clear]. *)
  Definition m_clear : mact := m_resize 0 true.
  (** Writing through data() after copy_link. *)
  Definition m_write_at (i : Z) (x : Z) : mact :=
    mthen m_copy_link (mdo (fun h m =>
      if (0 <=? i) && (i <? msize m) then h <- store_n h (padd (mptr m) i) [Some x] ;; Ok (h, m) else UB)).
End WithEnv.

(** ** Histories over several memory blocks, with exceptions. *)
Record mwstate := mkmws { xheap : heap; xms : list mb; xans : list bool }.

(** Run an action on block [i]. *)
Definition x_on (s : mwstate) (i : nat) (a : mact) : outcome (mwstate * mend) :=
  m <- rd (xms s) i ;;
  ' (w, r) <- a (mkmw (xheap s) m (xans s)) ;;
  ms' <- wr (xms s) i (wm w) ;;
  Ok (mkmws (wh w) ms' (wans w), r).

(** An operation on all blocks that does not allocate. *)
Definition x_pure (s : mwstate) (f : mstate -> outcome mstate) : outcome (mwstate * mend) :=
  ' (h, ms) <- f (xheap s, xms s) ;; Ok (mkmws h ms (xans s), Returned).

Section Run.
  Variable e : env.

  Definition xmstep (s : mwstate) (o : mop) : outcome (mwstate * mend) :=
    match o with
    | MAssign i p n => x_on s i (m_assign e 0 p n)
    | MCopy i j => b <- rd (xms s) j ;; x_on s i (m_assign e 0 (mptr b) (msize b))
    | MMove i j | MSwap i j => x_pure s (fun s => swap_mb s i j)
    | MLink i p n => x_on s i (mdo (fun h m => m' <- link p n ;; Ok (h, m')))
    | MDealloc i => x_on s i (mdo deallocate)
    | MManage i l =>
        x_on s i (m_realloc e None (Z.of_nat (length l)) (fun p => mdo (fun h m =>
          h <- store_n h p (map Some l) ;; m' <- manage p (Z.of_nat (length l)) ;; Ok (h, m'))))
    | MReserve i n x => x_on s i (m_reserve e 0 n x)
    | MResize i n x => x_on s i (m_resize e 0 n x)
    | MCopyLink i => x_on s i (m_copy_link e 0)
    | MShrink i => x_on s i (m_shrink e)
    | MInsert i ip n => x_on s i (m_insert e 0 ip n)
    | MErase i ep n => x_on s i (m_erase e 0 ep n)
    | MClear i => x_on s i (m_clear e 0)
    | MWrite i pos x => x_on s i (m_write_at e 0 pos x)
    end.
End Run.

(** A program: after every operation it goes on in one way if the operation
    returned and in another if it threw. *)
Inductive xprog (O : Type) : Type := Stop | Do (o : O) (returned threw : xprog O).
Arguments Stop {O}.
Arguments Do {O} o returned threw.

Fixpoint xrun {O} (step : mwstate -> O -> outcome (mwstate * mend)) (s : mwstate) (p : xprog O) : outcome mwstate :=
  match p with
  | Stop => Ok s
  | Do o k kt => ' (s', r) <- step s o ;;
                 match r with Returned => xrun step s' k | NoMemory => xrun step s' kt end
  end.

(** ** Strings *)
Section Strings.
  Variable e : env.
  Variable nul : ptr.

  (** ustring.cc:50-56 [resize]. *)
  Definition t_resize (n : Z) : mact := mget (fun _ m =>
    if (n =? 0) && (mcap m =? 0) then mdo (fun h m => Ok (h, mkmb nul 0 0)) else
    mthen (m_resize e 1 n true) (mdo (fun h m => h <- store_n h (padd (mptr m) n) [Some 0] ;; Ok (h, m)))).
  (** ustring.h:290-295 [resize (n, c)]. *)
  Definition t_resize_fill (n c : Z) : mact := mget (fun _ m =>
    let oldn := msize m in
    mthen (t_resize n) (mdo (fun h m => h <- fill_n h (padd (mptr m) (clamp m oldn)) (Z.max (n - oldn) 0) c ;; Ok (h, m)))).
  (** ustring.h:75 [clear]. *)
  Definition t_clear : mact := t_resize 0.
  (** ustring.cc:67-72 [assign (s, len)]. *)
  Definition t_assign (p : ptr) (len : Z) : mact :=
    mthen (t_resize len) (mdo (fun h m => h <- copy_n h p len (mptr m) ;; Ok (h, m))).
  (** strlen(s) of the argument, or of "" for a null pointer. *)
  Definition t_strlen (p : ptr) (k : ptr -> Z -> mact) : mact := fun s =>
    let p := match p with None => nul | _ => p end in
    len <- strlen (wh s) p ;; k p len s.
  (** ustring.cc:59-64 [assign (s)]. *)
  Definition t_assign_c (p : ptr) : mact := t_strlen p t_assign.
  (** ustring.cc:83-88 [append (s, len)]. *)
  Definition t_append (p : ptr) (len : Z) : mact := mget (fun _ m =>
    mthen (t_resize (u64 (msize m + len)))
          (mdo (fun h m => h <- copy_n h p len (padd (mptr m) (msize m - len)) ;; Ok (h, m)))).
  (** ustring.cc:75-80 [append (s)]. *)
  Definition t_append_c (p : ptr) : mact := t_strlen p t_append.
  (** ustring.cc:91-96 [append (n, c)]. *)
  Definition t_append_fill (n c : Z) : mact := mget (fun _ m =>
    mthen (t_resize (u64 (msize m + n)))
          (mdo (fun h m => h <- fill_n h (padd (mptr m) (msize m - n)) n c ;; Ok (h, m)))).
  (** ustring.h:120 [assign (n, c)]: clear, then append. *)
  Definition t_assign_fill (n c : Z) : mact := mthen t_clear (t_append_fill n c).
  (** ustring.h:110 [push_back]. *)
  Definition t_push_back (c : Z) : mact := mget (fun _ m =>
    mthen (t_resize (u64 (msize m + 1)))
          (mdo (fun h m => h <- store_n h (padd (mptr m) (msize m - 1)) [Some c] ;; Ok (h, m)))).
  (** ustring.h:112 [pop_back]. *)
  Definition t_pop_back : mact := mget (fun _ m => t_resize (u64 (msize m - 1))).
  (** ustring.cc:170-176 [insert (start, n, c)]. *)
  Definition t_insert_fill (ipo n c : Z) : mact := mget (fun _ m =>
    let ip := clamp m ipo in
    mthen (m_insert e 1 ip n)
          (mdo (fun h m => h <- fill_n h (padd (mptr m) ip) n c ;; terminate h m))).
  (** ustring.cc:186-195 [insert (start, first, last, n)]. *)
  Definition t_insert (ipo : Z) (p : ptr) (len cnt : Z) : mact := mget (fun _ m =>
    let ip := clamp m ipo in
    mthen (m_insert e 1 ip (u64 (len * cnt)))
          (mdo (fun h m => h <- fill h (padd (mptr m) ip) p len cnt ;; terminate h m))).
  (** ustring.cc:198-210 [erase]. *)
  Definition t_erase (epo n : Z) : mact := mget (fun _ m =>
    mthen (m_erase e 1 (clamp m epo) (Z.min n (u64 (msize m - epo)))) (mdo terminate)).
  (** ustring.cc:221-236 [replace (first, last, i1, i2, n)]: one erase or one insert. *)
  Definition t_replace (f l : Z) (p : ptr) (len cnt : Z) : mact := mget (fun _ m =>
    let f := clamp m f in let l := clamp m l in
    let bte := u64 (l - f) in let bti := u64 (len * cnt) in
    mthen (if bti <? bte then m_erase e 1 f (bte - bti)
           else if bte <? bti then m_insert e 1 f (bti - bte)
           else mdo (fun h m => Ok (h, m)))
          (mdo (fun h m => h <- fill h (padd (mptr m) f) p len cnt ;; terminate h m))).
  (** ustring.h:181, 186 [replace (.., n, c)]. *)
  Definition t_replace_fill (f l cnt c : Z) : mact := mget (fun _ m =>
    let f := clamp m f in let l := clamp m l in
    let bte := u64 (l - f) in let bti := cnt in
    mthen (if bti <? bte then m_erase e 1 f (bte - bti)
           else if bte <? bti then m_insert e 1 f (bti - bte)
           else mdo (fun h m => Ok (h, m)))
          (mdo (fun h m => h <- store_n h (padd (mptr m) f) (repeat (Some c) (Z.to_nat cnt)) ;; terminate h m))).
  (** ustring.cc:21-30 copy constructor, on a new object (memblock(), then
      resize in the base class constructor, memblock.cc:15). *)
  Definition t_copy (s : mb) : mact :=
    let n := if is_linked s then 0 else u64 (msize s + 1) in
    mthen (m_resize e 0 n true)
          (mdo (fun h m =>
             if is_linked s then Ok (h, mkmb (mptr s) (msize s) (mcap m))
             else h <- copy_n h (mptr s) (msize m) (mptr m) ;; Ok (h, mkmb (mptr m) (msize m - 1) (mcap m)))).
  (** ustring.cc:41-47 [string (n, c)], on a new object. *)
  Definition t_of_fill (n c : Z) : mact :=
    mthen (m_resize e 0 (u64 (n + 1)) true)
          (mdo (fun h m =>
             let m := mkmb (mptr m) (msize m - 1) (mcap m) in
             h <- fill_n h (mptr m) n c ;;
             h <- store_n h (padd (mptr m) n) [Some 0] ;; Ok (h, m))).
  (** ustring.h:119 [assign (s, o, n)]; 246-250 [string (s, o, n)] on a new object. *)
  Definition t_assign_sub (s : mb) (o n : Z) : mact :=
    let f := clamp s o in let l := clamp s (u64 (o + n)) in
    t_assign (padd (mptr s) f) (u64 (l - f)).

  (** A constructor into variable [i]: the string that was there has been
      destroyed.  If the constructor throws, the base class constructor or the
      destructor of the base class (memblock.cc:19) frees what it had; the
      variable then gets a default constructed string. *)
  Definition t_renew (a : mact) : mact := fun s =>
    ' (h, _) <- deallocate (wh s) (wm s) ;;
    ' (w, r) <- a (mkmw h mb_nil (wans s)) ;;
    match r with
    | Returned => Ok (w, Returned)
    | NoMemory => ' (h, _) <- deallocate (wh w) (wm w) ;; Ok (mkmw h (str_nil nul) (wans w), NoMemory)
    end.
  Definition x_with (s : mwstate) (j : nat) (k : mb -> outcome (mwstate * mend)) : outcome (mwstate * mend) :=
    m <- rd (xms s) j ;; k m.

  Definition xsstep (s : mwstate) (o : sop) : outcome (mwstate * mend) :=
    match o with
    | SOfC i p => x_pure s (fun s => sstep e nul s o)
    | SCopyOf i j => x_with s j (fun x => x_on s i (t_renew (t_copy x)))
    | SMoveOf i j => x_pure s (fun s => sstep e nul s o)
    | SOfFill i n c => x_on s i (t_renew (t_of_fill n c))
    | SSubstr i j o n => x_with s j (fun x => x_on s i (t_renew (t_assign_sub x o n)))
    | SAssign i p len => x_on s i (t_assign p len)
    | SAssignC i p => x_on s i (t_assign_c p)
    | SAssignStr i j => x_with s j (fun x => x_on s i (t_assign (mptr x) (msize x)))
    | SAssignSub i j o n => x_with s j (fun x => x_on s i (t_assign_sub x o n))
    | SAssignFill i n c => x_on s i (t_assign_fill n c)
    | SAppend i p len => x_on s i (t_append p len)
    | SAppendC i p => x_on s i (t_append_c p)
    | SAppendStr i j => x_with s j (fun x => x_on s i (t_append (mptr x) (msize x)))
    | SAppendFill i n c => x_on s i (t_append_fill n c)
    | SPushBack i c => x_on s i (t_push_back c)
    | SPopBack i => x_on s i t_pop_back
    | SResize i n => x_on s i (t_resize n)
    | SResizeFill i n c => x_on s i (t_resize_fill n c)
    | SClear i => x_on s i t_clear
    | SReserve i n => x_on s i (m_reserve e 1 n false)
    | SInsertFill i ip n c => x_on s i (t_insert_fill ip n c)
    | SInsert i ip p len cnt => x_on s i (t_insert ip p len cnt)
    | SInsertSub i ip j o n =>
        x_with s j (fun x => x_on s i
          (t_insert ip (padd (mptr x) (clamp x o)) (u64 (clamp x (u64 (o + n)) - clamp x o)) 1))
    | SErase i ep n => x_on s i (t_erase ep n)
    | SReplace i rp n p len cnt => x_on s i (t_replace rp (u64 (rp + n)) p len cnt)
    | SReplaceStr i rp n j => x_with s j (fun x => x_on s i (t_replace rp (u64 (rp + n)) (mptr x) (msize x) 1))
    | SReplaceFill i rp n cnt c => x_on s i (t_replace_fill rp (u64 (rp + n)) cnt c)
    | SSet i pos c => x_on s i (mdo (fun h m => str_set h m pos c))
    | SSwap i j => x_pure s (fun s => swap_mb s i j)
    end.
End Strings.
