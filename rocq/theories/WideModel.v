(** * WideModel: ustl::string edited with wide characters.

    The string is the one of StringModel, the encoder the one of Utf8Model.
    [len] of a source range of wide characters is the length of the list. *)
From Verif Require Import Base UtilModel Utf8Model StoreModel MemModel StringModel.
From Coq Require Import ZArith.
Local Open Scope Z_scope.

(** utf8.h:180-193 [utf8out_iterator::operator=] over a string::iterator: the
    bytes are stored at [*_i++]; returned is the iterator after them.  The
    bytes of one character are stored at once. *)
Definition wput (h : heap) (dst : ptr) (v : Z) : outcome (heap * ptr) :=
  bytes <- utf8_out v ;;
  h <- store_n h dst (map Some bytes) ;;
  Ok (h, padd dst (Z.of_nat (length bytes))).
(** ualgobase.h:144-150 [fill_n] through the iterator. *)
Fixpoint wfill_n (h : heap) (dst : ptr) (v : Z) (n : nat) : outcome (heap * ptr) :=
  match n with
  | O => Ok (h, dst)
  | S k => ' (h, dst) <- wput h dst v ;; wfill_n h dst v k
  end.
(** ustring.cc:162-163, the inner loop over the range. *)
Fixpoint wput_all (h : heap) (dst : ptr) (l : list Z) : outcome (heap * ptr) :=
  match l with
  | [] => Ok (h, dst)
  | v :: t => ' (h, dst) <- wput h dst v ;; wput_all h dst t
  end.
(** ustring.cc:161-163, the outer loop. *)
Fixpoint wput_times (h : heap) (dst : ptr) (l : list Z) (n : nat) : outcome (heap * ptr) :=
  match n with
  | O => Ok (h, dst)
  | S k => ' (h, dst) <- wput_all h dst l ;; wput_times h dst l k
  end.

Section WithEnv.
  Variable e : env.
  Variable nul : ptr.
  (** ustring.cc:144-151 [insert (ipo, n, c)], c wide. *)
  Definition str_insert_wfill (h : heap) (m : mb) (ipo n c : Z) : outcome (heap * mb) :=
    let ip := clamp m ipo in
    ' (h, m) <- insert e 1 h m ip (u64 (n * utf8_bytes c)) ;;
    ' (h, _) <- wfill_n h (padd (mptr m) ip) c (Z.to_nat n) ;;
    terminate h m.
  (** ustring.cc:154-167 [insert (ipo, first, last, n)], wide; [u64] at the end
      of the sum as of each addition (ustring.cc:157-159). *)
  Definition str_insert_wide (h : heap) (m : mb) (ipo : Z) (l : list Z) (n : Z) : outcome (heap * mb) :=
    let ip := clamp m ipo in
    let bti := u64 (utf8_bytes_all l) in
    ' (h, m) <- insert e 1 h m ip (u64 (n * bti)) ;;
    ' (h, _) <- wput_times h (padd (mptr m) ip) l (Z.to_nat n) ;;
    terminate h m.
  (** ustring.h:105 [append (n, c)]. *)
  Definition str_append_wfill (h : heap) (m : mb) (n c : Z) : outcome (heap * mb) := str_insert_wfill h m (msize m) n c.
  (** ustring.h:111, 140 [push_back], [operator+=]. *)
  Definition str_push_back_wide (h : heap) (m : mb) (c : Z) : outcome (heap * mb) := str_append_wfill h m 1 c.
  (** ustring.h:121 [assign (n, c)]. *)
  Definition str_assign_wfill (h : heap) (m : mb) (n c : Z) : outcome (heap * mb) :=
    ' (h, m) <- str_clear e nul h m ;; str_append_wfill h m n c.
End WithEnv.

(** ** Histories *)
Inductive wop : Type :=
| WNarrow (o : sop)                                 (* the operations of StringModel *)
| WInsertFill (i : nat) (ip n c : Z)
| WInsert (i : nat) (ip : Z) (l : list Z) (n : Z)
| WAppendFill (i : nat) (n c : Z)
| WPushBack (i : nat) (c : Z)
| WAssignFill (i : nat) (n c : Z).

Section Run.
  Variable e : env.
  Variable nul : ptr.
  Definition wstep (s : mstate) (o : wop) : outcome mstate :=
    match o with
    | WNarrow o => sstep e nul s o
    | WInsertFill i ip n c => on s i (fun h m => str_insert_wfill e h m ip n c)
    | WInsert i ip l n => on s i (fun h m => str_insert_wide e h m ip l n)
    | WAppendFill i n c => on s i (fun h m => str_append_wfill e h m n c)
    | WPushBack i c => on s i (fun h m => str_push_back_wide e h m c)
    | WAssignFill i n c => on s i (fun h m => str_assign_wfill e nul h m n c)
    end.
  Fixpoint wrun (s : mstate) (ops : list wop) : outcome mstate :=
    match ops with
    | [] => Ok s
    | o :: t => s' <- wstep s o ;; wrun s' t
    end.
End Run.
