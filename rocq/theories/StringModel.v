(** * StringModel: ustl::string's storage, editing and comparison.

    A string is a memory block (MemModel) whose minimumFreeCapacity is one
    (ustring.cc:395).  char is a byte 0..255.  [nul] is where the literal ""
    lies. *)
From Verif Require Import Base UtilModel StoreModel MemModel.
From Coq Require Import ZArith.
Local Open Scope Z_scope.

(** strlen(3): undefined without a terminator in the block. *)
Fixpoint cstrlen (cells : list (option Z)) : outcome Z :=
  match cells with
  | Some c :: t => if c =? 0 then Ok 0 else n <- cstrlen t ;; Ok (n + 1)
  | _ => UB
  end.
Definition strlen (h : heap) (p : ptr) : outcome Z :=
  match p with
  | None => UB
  | Some (b, o) =>
      k <- rd h b ;;
      if readable (bkind k) && in_range o 0 (bcells k) then cstrlen (skipn (Z.to_nat o) (bcells k)) else UB
  end.

Section WithEnv.
  Variable e : env.
  Variable nul : ptr.

  (** ustring.h:59 [string()]. *)
  Definition str_nil : mb := mkmb nul 0 0.
  (** [*end() = 0]. *)
  Definition terminate (h : heap) (m : mb) : outcome (heap * mb) :=
    h <- store_n h (padd (mptr m) (msize m)) [Some 0] ;; Ok (h, m).
  (** ustring.h:92 [iat]: positions are clamped. *)
  Definition clamp (m : mb) (pos : Z) : Z := Z.min pos (msize m).
  (** ustring.cc:50-56 [resize]. *)
  Definition str_resize (h : heap) (m : mb) (n : Z) : outcome (heap * mb) :=
    if (n =? 0) && (mcap m =? 0) then Ok (h, mkmb nul 0 0) else
    ' (h, m) <- resize e 1 h m n true ;;
    h <- store_n h (padd (mptr m) n) [Some 0] ;; Ok (h, m).
  (** ustring.h:290-295 [resize (n, c)]. *)
  Definition str_resize_fill (h : heap) (m : mb) (n : Z) (c : Z) : outcome (heap * mb) :=
    let oldn := msize m in
    ' (h, m) <- str_resize h m n ;;
    h <- fill_n h (padd (mptr m) (clamp m oldn)) (Z.max (n - oldn) 0) c ;; Ok (h, m).
  (** ustring.h:75 [clear]. *)
  Definition str_clear (h : heap) (m : mb) : outcome (heap * mb) := str_resize h m 0.
  (** ustring.cc:67-72 [assign (s, len)]. *)
  Definition str_assign (h : heap) (m : mb) (p : ptr) (len : Z) : outcome (heap * mb) :=
    ' (h, m) <- str_resize h m len ;;
    h <- copy_n h p len (mptr m) ;; Ok (h, m).
  (** ustring.cc:59-64 [assign (s)]. *)
  Definition str_assign_c (h : heap) (m : mb) (p : ptr) : outcome (heap * mb) :=
    let p := match p with None => nul | _ => p end in
    len <- strlen h p ;; str_assign h m p len.
  (** ustring.cc:83-88 [append (s, len)]. *)
  Definition str_append (h : heap) (m : mb) (p : ptr) (len : Z) : outcome (heap * mb) :=
    ' (h, m) <- str_resize h m (u64 (msize m + len)) ;;
    h <- copy_n h p len (padd (mptr m) (msize m - len)) ;; Ok (h, m).
  (** ustring.cc:75-80 [append (s)]. *)
  Definition str_append_c (h : heap) (m : mb) (p : ptr) : outcome (heap * mb) :=
    let p := match p with None => nul | _ => p end in
    len <- strlen h p ;; str_append h m p len.
  (** ustring.cc:91-96 [append (n, c)]. *)
  Definition str_append_fill (h : heap) (m : mb) (n : Z) (c : Z) : outcome (heap * mb) :=
    ' (h, m) <- str_resize h m (u64 (msize m + n)) ;;
    h <- fill_n h (padd (mptr m) (msize m - n)) n c ;; Ok (h, m).
  (** ustring.h:120 [assign (n, c)]. *)
  Definition str_assign_fill (h : heap) (m : mb) (n : Z) (c : Z) : outcome (heap * mb) :=
    ' (h, m) <- str_clear h m ;; str_append_fill h m n c.
  (** ustring.h:110 [push_back]. *)
  Definition str_push_back (h : heap) (m : mb) (c : Z) : outcome (heap * mb) :=
    ' (h, m) <- str_resize h m (u64 (msize m + 1)) ;;
    h <- store_n h (padd (mptr m) (msize m - 1)) [Some c] ;; Ok (h, m).
  (** ustring.h:112 [pop_back]. *)
  Definition str_pop_back (h : heap) (m : mb) : outcome (heap * mb) := str_resize h m (u64 (msize m - 1)).

  (** memlink.cc:32-41 [fill]; the destination never overlaps the pattern here. *)
  Fixpoint fill_loop (h : heap) (dst p : ptr) (len : Z) (cnt : nat) : outcome heap :=
    match cnt with
    | O => Ok h
    | S k => h <- copy_n h p len dst ;; fill_loop h (padd dst len) p len k
    end.
  Definition fill (h : heap) (dst p : ptr) (len cnt : Z) : outcome heap :=
    if len =? 1 then
      l <- load_n h p 1 ;;
      match l with [c] => store_n h dst (repeat c (Z.to_nat cnt)) | _ => UB end
    else fill_loop h dst p len (Z.to_nat cnt).

  (** ustring.cc:170-176 [insert (start, n, c)], with ustring.h:157. *)
  Definition str_insert_fill (h : heap) (m : mb) (ipo n : Z) (c : Z) : outcome (heap * mb) :=
    let ip := clamp m ipo in
    ' (h, m) <- insert e 1 h m ip n ;;
    h <- fill_n h (padd (mptr m) ip) n c ;;
    terminate h m.
  (** ustring.cc:186-195 [insert (start, first, last, n)], with ustring.h:159, 161. *)
  Definition str_insert (h : heap) (m : mb) (ipo : Z) (p : ptr) (len cnt : Z) : outcome (heap * mb) :=
    let ip := clamp m ipo in
    ' (h, m) <- insert e 1 h m ip (u64 (len * cnt)) ;;
    h <- fill h (padd (mptr m) ip) p len cnt ;;
    terminate h m.
  (** ustring.cc:179-183 [insert (start, s, n)]: n copies of a C string. *)
  Definition str_insert_c (h : heap) (m : mb) (ipo : Z) (p : ptr) (cnt : Z) : outcome (heap * mb) :=
    let p := match p with None => nul | _ => p end in
    len <- strlen h p ;; str_insert h m ipo p len cnt.
  (** ustring.h:160 [insert (ip, const string& s)]: calls
      [insert (iat(ip), s.c_str(), s.size())], and with an iterator first the
      overload taking a C string and a count is the one selected. *)
  Definition str_insert_str (h : heap) (m : mb) (ipo : Z) (s : mb) : outcome (heap * mb) :=
    str_insert_c h m ipo (mptr s) (msize s).
  (** ustring.cc:198-203 [erase (ep, n)]. *)
  Definition str_erase_at (h : heap) (m : mb) (ep n : Z) : outcome (heap * mb) :=
    ' (h, m) <- erase e 1 h m ep n ;; terminate h m.
  (** ustring.cc:206-210 [erase (epo, n)]. *)
  Definition str_erase (h : heap) (m : mb) (epo n : Z) : outcome (heap * mb) :=
    str_erase_at h m (clamp m epo) (Z.min n (u64 (msize m - epo))).
  (** ustring.cc:221-236 [replace (first, last, i1, i2, n)]; the iterators are
      iat (f) and iat (l) (ustring.h:182-186). *)
  Definition str_replace (h : heap) (m : mb) (f l : Z) (p : ptr) (len cnt : Z) : outcome (heap * mb) :=
    let f := clamp m f in let l := clamp m l in
    let bte := u64 (l - f) in let bti := u64 (len * cnt) in
    ' (h, m) <- (if bti <? bte then erase e 1 h m f (bte - bti)
                 else if bte <? bti then insert e 1 h m f (bti - bte)
                 else Ok (h, m)) ;;
    h <- fill h (padd (mptr m) f) p len cnt ;;
    terminate h m.
  (** ustring.h:181, 186 [replace (.., n, c)]: the pattern is the argument c. *)
  Definition str_replace_fill (h : heap) (m : mb) (f l : Z) (cnt : Z) (c : Z) : outcome (heap * mb) :=
    let f := clamp m f in let l := clamp m l in
    let bte := u64 (l - f) in let bti := cnt in
    ' (h, m) <- (if bti <? bte then erase e 1 h m f (bte - bti)
                 else if bte <? bti then insert e 1 h m f (bti - bte)
                 else Ok (h, m)) ;;
    h <- store_n h (padd (mptr m) f) (repeat (Some c) (Z.to_nat cnt)) ;;
    terminate h m.

  (** ustring.cc:21-30 copy constructor. *)
  Definition str_copy (h : heap) (s : mb) : outcome (heap * mb) :=
    let n := if is_linked s then 0 else u64 (msize s + 1) in
    ' (h, m) <- resize e 0 h mb_nil n true ;;
    if is_linked s then Ok (h, mkmb (mptr s) (msize s) (mcap m))
    else h <- copy_n h (mptr s) (msize m) (mptr m) ;; Ok (h, mkmb (mptr m) (msize m - 1) (mcap m)).
  (** ustring.cc:33-38 [string (const char* )]. *)
  Definition str_of_c (h : heap) (p : ptr) : outcome (heap * mb) :=
    let p := match p with None => nul | _ => p end in
    len <- strlen h p ;; Ok (h, mkmb p len 0).
  (** ustring.cc:41-47 [string (n, c)]. *)
  Definition str_of_fill (h : heap) (n : Z) (c : Z) : outcome (heap * mb) :=
    ' (h, m) <- resize e 0 h mb_nil (u64 (n + 1)) true ;;
    let m := mkmb (mptr m) (msize m - 1) (mcap m) in
    h <- fill_n h (mptr m) n c ;;
    h <- store_n h (padd (mptr m) n) [Some 0] ;; Ok (h, m).
  (** ustring.h:119 [assign (s, o, n)]. *)
  Definition str_assign_sub (h : heap) (m s : mb) (o n : Z) : outcome (heap * mb) :=
    let f := clamp s o in let l := clamp s (u64 (o + n)) in
    str_assign h m (padd (mptr s) f) (u64 (l - f)).
  (** ustring.h:246-250 [string (s, o, n)], 187 [substr]. *)
  Definition str_substr (h : heap) (s : mb) (o n : Z) : outcome (heap * mb) := str_assign_sub h mb_nil s o n.
  (** ustring.h:108, 137 [append (s)], [operator+=]. *)
  Definition str_append_str (h : heap) (m s : mb) : outcome (heap * mb) := str_append h m (mptr s) (msize s).
  (** ustring.h:133 [operator= (s)]. *)
  Definition str_assign_str (h : heap) (m s : mb) : outcome (heap * mb) := str_assign h m (mptr s) (msize s).
  (** ustring.h:91 [at (pos) = c]. *)
  Definition str_set (h : heap) (m : mb) (pos c : Z) : outcome (heap * mb) :=
    h <- store_n h (padd (mptr m) pos) [Some c] ;; Ok (h, m).
  (** ustring.cc:99-105 [copy]: the bytes it writes at p. *)
  Definition str_copy_out (h : heap) (m : mb) (n start : Z) : outcome (list (option Z)) :=
    load_n h (padd (mptr m) (clamp m start)) (Z.min n (u64 (msize m - start))).
  (** c_str()[size()]. *)
  Definition str_last (h : heap) (m : mb) : outcome (list (option Z)) := load_n h (padd (mptr m) (msize m)) 1.
End WithEnv.

(** ** Histories over several strings *)
Inductive sop : Type :=
| SOfC (i : nat) (p : ptr)                           (* string (p) *)
| SCopyOf (i j : nat)                                (* string (const string&) *)
| SMoveOf (i j : nat)                                (* string (string&&): ustring.h:221, memblock.h:53 *)
| SOfFill (i : nat) (n c : Z)                        (* string (n, c) *)
| SSubstr (i j : nat) (o n : Z)                      (* string (s, o, n) *)
| SAssign (i : nat) (p : ptr) (len : Z)
| SAssignC (i : nat) (p : ptr)
| SAssignStr (i j : nat)
| SAssignSub (i j : nat) (o n : Z)
| SAssignFill (i : nat) (n c : Z)
| SAppend (i : nat) (p : ptr) (len : Z)
| SAppendC (i : nat) (p : ptr)
| SAppendStr (i j : nat)
| SAppendFill (i : nat) (n c : Z)
| SPushBack (i : nat) (c : Z)
| SPopBack (i : nat)
| SResize (i : nat) (n : Z)
| SResizeFill (i : nat) (n c : Z)
| SClear (i : nat)
| SReserve (i : nat) (n : Z)
| SInsertFill (i : nat) (ip n c : Z)
| SInsert (i : nat) (ip : Z) (p : ptr) (len cnt : Z)
| SInsertSub (i : nat) (ip : Z) (j : nat) (o n : Z)  (* insert (ip, s, o, n) *)
| SErase (i : nat) (ep n : Z)
| SReplace (i : nat) (rp n : Z) (p : ptr) (len cnt : Z)
| SReplaceStr (i : nat) (rp n : Z) (j : nat)
| SReplaceFill (i : nat) (rp n cnt c : Z)
| SSet (i : nat) (pos c : Z)
| SSwap (i j : nat).                                 (* also move assignment, ustring.h:227 *)

Section Run.
  Variable e : env.
  Variable nul : ptr.
  (** A constructor into slot [i]: the string that was there is destroyed. *)
  Definition renew (s : mstate) (i : nat) (f : heap -> outcome (heap * mb)) : outcome mstate :=
    on s i (fun h m => ' (h, _) <- deallocate h m ;; f h).
  Definition with_str (s : mstate) (j : nat) (k : mb -> outcome mstate) : outcome mstate :=
    m <- rd (snd s) j ;; k m.
  Definition sstep (s : mstate) (o : sop) : outcome mstate :=
    match o with
    | SOfC i p => renew s i (fun h => str_of_c nul h p)
    | SCopyOf i j => with_str s j (fun x => renew s i (fun h => str_copy e h x))
    | SMoveOf i j =>
        with_str s j (fun x => s <- renew s i (fun h => Ok (h, x)) ;; on s j (fun h _ => Ok (h, mb_nil)))
    | SOfFill i n c => renew s i (fun h => str_of_fill e h n c)
    | SSubstr i j o n => with_str s j (fun x => renew s i (fun h => str_substr e nul h x o n))
    | SAssign i p len => on s i (fun h m => str_assign e nul h m p len)
    | SAssignC i p => on s i (fun h m => str_assign_c e nul h m p)
    | SAssignStr i j => with_str s j (fun x => on s i (fun h m => str_assign_str e nul h m x))
    | SAssignSub i j o n => with_str s j (fun x => on s i (fun h m => str_assign_sub e nul h m x o n))
    | SAssignFill i n c => on s i (fun h m => str_assign_fill e nul h m n c)
    | SAppend i p len => on s i (fun h m => str_append e nul h m p len)
    | SAppendC i p => on s i (fun h m => str_append_c e nul h m p)
    | SAppendStr i j => with_str s j (fun x => on s i (fun h m => str_append_str e nul h m x))
    | SAppendFill i n c => on s i (fun h m => str_append_fill e nul h m n c)
    | SPushBack i c => on s i (fun h m => str_push_back e nul h m c)
    | SPopBack i => on s i (str_pop_back e nul)
    | SResize i n => on s i (fun h m => str_resize e nul h m n)
    | SResizeFill i n c => on s i (fun h m => str_resize_fill e nul h m n c)
    | SClear i => on s i (str_clear e nul)
    | SReserve i n => on s i (fun h m => reserve e 1 h m n false)
    | SInsertFill i ip n c => on s i (fun h m => str_insert_fill e h m ip n c)
    | SInsert i ip p len cnt => on s i (fun h m => str_insert e h m ip p len cnt)
    | SInsertSub i ip j o n =>
        with_str s j (fun x => on s i (fun h m =>
          str_insert e h m ip (padd (mptr x) (clamp x o)) (u64 (clamp x (u64 (o + n)) - clamp x o)) 1))
    | SErase i ep n => on s i (fun h m => str_erase e h m ep n)
    | SReplace i rp n p len cnt => on s i (fun h m => str_replace e h m rp (u64 (rp + n)) p len cnt)
    | SReplaceStr i rp n j =>
        with_str s j (fun x => on s i (fun h m => str_replace e h m rp (u64 (rp + n)) (mptr x) (msize x) 1))
    | SReplaceFill i rp n cnt c => on s i (fun h m => str_replace_fill e h m rp (u64 (rp + n)) cnt c)
    | SSet i pos c => on s i (fun h m => str_set h m pos c)
    | SSwap i j => swap_mb s i j
    end.
  Fixpoint srun (s : mstate) (ops : list sop) : outcome mstate :=
    match ops with
    | [] => Ok s
    | o :: t => s' <- sstep s o ;; srun s' t
    end.
End Run.
