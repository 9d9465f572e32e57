(** * FdModel: opening and closing files with fstream.

    The kernel's table gives for each descriptor number the open file behind
    it; every open(2) makes a new file number.  The answers of open(2) and
    close(2) are given by schedules; a call for which there is no answer never
    returns ([NoFuel]).  Simplified: reading, writing and seeking are in
    FileModel; attach() of a descriptor the caller opened runs the same code as
    open() and is not listed. *)
From Verif Require Import Base UtilModel StreamModel.
From Coq Require Import ZArith.
Local Open Scope Z_scope.

(** ** Open modes *)

(** <fcntl.h>, Linux on x86. *)
Definition O_RDONLY := 0. Definition O_WRONLY := 1. Definition O_RDWR := 2. Definition O_ACCMODE := 3.
Definition O_CREAT := 64. Definition O_NOCTTY := 256. Definition O_TRUNC := 512.
Definition O_APPEND := 1024. Definition O_NONBLOCK := 2048.
(** uios.h:38-51. *)
Definition om_in := 1. Definition om_out := 2. Definition om_app := 4. Definition om_ate := 8.
Definition om_binary := 16. Definition om_trunc := 32. Definition om_nonblock := 64.
Definition om_nocreate := 128. Definition om_noctty := 256.
(** fstream.cc:85-95 [s_OMFlags]. *)
Definition omflags : list Z := [0; O_CREAT; O_APPEND; O_APPEND; 0; O_TRUNC; O_NONBLOCK; 0; O_NOCTTY].
(** fstream.cc:101-102. *)
Fixpoint om_loop (tbl : list Z) (i : Z) (m flags : Z) : Z :=
  match tbl with
  | [] => flags
  | f :: t => om_loop t (i + 1) m (Z.lor flags (if Z.land m (Z.shiftl 1 i) =? 0 then 0 else f))
  end.
(** fstream.cc:83-106 [om_to_flags]; the constants satisfy the condition of 97. *)
Definition om_to_flags (m : Z) : Z :=
  let flags := Z.land (u32 (m - 1)) O_ACCMODE in
  let flags := om_loop omflags 0 m flags in
  if Z.land m om_nocreate =? 0 then flags else Z.land flags (Z.lnot O_CREAT).

(** What open(2) with [O_APPEND] and without means for the position: the file
    [content], the offset after opening is 0; write(2) of [l] at offset [o]. *)
Definition os_write_at (flags : Z) (content : list Z) (o : nat) (l : list Z) : list Z * nat :=
  let o := if Z.land flags O_APPEND =? 0 then o else length content in
  (firstn o content ++ repeat 0 (o - length content) ++ l ++ skipn (o + length l) content, (o + length l)%nat).

(** ** Descriptors *)
Local Open Scope nat_scope.

(** What close(2) answers: 0; -1 with EINTR, where [other] says that another
    thread opens a file before the caller goes on; -1 with another error (EIO).
    An error releases the descriptor; whether EINTR does is [keeps] (Linux: it
    does, so [keeps] is false). *)
Inductive cans : Type := COk | CIntr (other : bool) | CErr.
Record kern := mkk {
  k_tab : list (option nat);   (* descriptor -> file *)
  k_next : nat;                (* the next file number *)
  k_mine : list nat;           (* files opened by an fstream *)
  k_closed : list nat;         (* files whose descriptor an fstream has closed *)
  k_given : list nat;          (* files detached from an fstream *)
  k_opens : list bool; k_closes : list cans }.

(** The lowest free descriptor. *)
Fixpoint lowest (tab : list (option nat)) : nat :=
  match tab with
  | None :: _ => 0
  | Some _ :: t => S (lowest t)
  | [] => 0
  end.
Definition put_fd (tab : list (option nat)) (fd : nat) (x : option nat) : list (option nat) :=
  firstn fd tab ++ x :: skipn (S fd) tab.
(** Someone opens a file. *)
Definition other_opens (k : kern) : kern :=
  mkk (put_fd (k_tab k) (lowest (k_tab k)) (Some (k_next k))) (S (k_next k)) (k_mine k) (k_closed k) (k_given k) (k_opens k) (k_closes k).
(** open(2): [None] is -1. *)
Definition sys_open (k : kern) : outcome (kern * option nat) :=
  match k_opens k with
  | [] => NoFuel
  | false :: t => Ok (mkk (k_tab k) (k_next k) (k_mine k) (k_closed k) (k_given k) t (k_closes k), None)
  | true :: t =>
      let fd := lowest (k_tab k) in
      Ok (mkk (put_fd (k_tab k) fd (Some (k_next k))) (S (k_next k)) (k_next k :: k_mine k) (k_closed k) (k_given k) t (k_closes k), Some fd)
  end.
(** close(2): [Some e] is -1, [e] whether errno is EINTR.  A descriptor that is
    not open gives EBADF. *)
Definition sys_close (keeps : bool) (k : kern) (fd : nat) : outcome (kern * option bool) :=
  match k_closes k with
  | [] => NoFuel
  | a :: t =>
      match nth fd (k_tab k) None with
      | None => Ok (mkk (k_tab k) (k_next k) (k_mine k) (k_closed k) (k_given k) (k_opens k) t, Some false)
      | Some id =>
          let released := mkk (put_fd (k_tab k) fd None) (k_next k) (k_mine k) (id :: k_closed k) (k_given k) (k_opens k) t in
          let held := mkk (k_tab k) (k_next k) (k_mine k) (k_closed k) (k_given k) (k_opens k) t in
          match a with
          | COk => Ok (released, None)
          | CErr => Ok (released, Some false)
          | CIntr other =>
              let k := if keeps then held else released in
              Ok (if other then other_opens k else k, Some true)
          end
      end
  end.

(** fstream.h:64-66: [_fd] ([None]: negative), [_filename]; uios.h:95-96. *)
Record fstr := mkfs { fs_fd : option nat; fs_name : list Z; fs_state : Z; fs_exc : Z }.
(** fstream.cc:19-25. *)
Definition fs_new : fstr := mkfs None [] 0 0.
Definition badbit : Z := 1.
(** fstream.cc:57-61 [set_and_throw]: the file, and whether it throws. *)
Definition fs_set (b : Z) (f : fstr) : fstr := mkfs (fs_fd f) (fs_name f) (Z.lor (fs_state f) b) (fs_exc f).
Definition fs_throws (b : Z) (f : fstr) : bool := negb (Z.land (fs_exc f) b =? 0)%Z.
(** fstream.cc:76-80 [detach]. *)
Definition fs_detach (f : fstr) : fstr := mkfs None [] (fs_state f) (fs_exc f).

Section Kernel.
  Variable keeps : bool.

  (** fstream.cc:117-128 [close]: the state and whether it threw. *)
  Fixpoint close_loop (fuel : nat) (k : kern) (f : fstr) (fd : nat) : outcome (kern * fstr * bool) :=
    match fuel with
    | O => NoFuel
    | S fuel' =>
        ' (k, r) <- sys_close keeps k fd ;;
        match r with
        | None => Ok (k, fs_detach f, false)
        | Some true => close_loop fuel' k f fd
        | Some false =>
            let b := Z.lor badbit failbit in
            if fs_throws b f then Ok (k, fs_set b f, true) else Ok (k, fs_detach (fs_set b f), false)
        end
    end.
  Definition fs_close (k : kern) (f : fstr) : outcome (kern * fstr * bool) :=
    match fs_fd f with
    | None => Ok (k, f, false)
    | Some fd => close_loop (S (length (k_closes k))) k f fd
    end.
  (** fstream.cc:64-73 [attach]. *)
  Definition fs_attach (k : kern) (f : fstr) (nfd : option nat) (name : list Z) : outcome (kern * fstr * bool) :=
    let f := mkfs (fs_fd f) name 0 (fs_exc f) in
    let f' := match nfd with None => fs_set badbit f | Some _ => f end in
    if match nfd with None => fs_throws badbit f | Some _ => false end then Ok (k, f', true) else
    ' (k, f, thrown) <- fs_close k f' ;;
    if thrown : bool then Ok (k, f, true)
    else Ok (k, mkfs nfd (fs_name f) (fs_state f) (fs_exc f), false).
  (** fstream.cc:110-114 [open]. *)
  Definition fs_open (k : kern) (f : fstr) (name : list Z) : outcome (kern * fstr * bool) :=
    ' (k, nfd) <- sys_open k ;; fs_attach k f nfd name.
  (** fstream.cc:48-54: the destructor; its assertion fails ([UB]) if the
      close failed. *)
  Definition fs_destroy (asserts : bool) (k : kern) (f : fstr) : outcome (kern * fstr * bool) :=
    ' (k, f, _) <- fs_close k (mkfs (fs_fd f) (fs_name f) 0 0) ;;
    if asserts && negb (Z.land (fs_state f) badbit =? 0)%Z then UB else Ok (k, fs_new, false).

  (** Histories over several fstreams and another thread. *)
  Inductive fdop : Type :=
  | FdOpen (i : nat) (name : list Z)
  | FdClose (i : nat)
  | FdDetach (i : nat)             (* the descriptor is then the caller's *)
  | FdExceptions (i : nat) (v : Z)
  | FdClear (i : nat)
  | FdDestroy (i : nat)            (* and a new fstream in its place *)
  | FdOther.                       (* another thread opens a file *)
  Definition on_fs (k : kern) (fs : list fstr) (i : nat) (op : kern -> fstr -> outcome (kern * fstr * bool))
    : outcome (kern * list fstr) :=
    f <- rd fs i ;; ' (k, f, _) <- op k f ;; fs <- wr fs i f ;; Ok (k, fs).
  Definition fd_step (s : kern * list fstr) (o : fdop) : outcome (kern * list fstr) :=
    let (k, fs) := s in
    match o with
    | FdOpen i name => on_fs k fs i (fun k f => fs_open k f name)
    | FdClose i => on_fs k fs i fs_close
    | FdDetach i => on_fs k fs i (fun k f =>
        let g := match fs_fd f with Some fd => match nth fd (k_tab k) None with Some id => [id] | None => [] end | None => [] end in
        Ok (mkk (k_tab k) (k_next k) (k_mine k) (k_closed k) (g ++ k_given k) (k_opens k) (k_closes k), fs_detach f, false))
    | FdExceptions i v => on_fs k fs i (fun k f => Ok (k, mkfs (fs_fd f) (fs_name f) (fs_state f) v, false))   (* uios.h:90 *)
    | FdClear i => on_fs k fs i (fun k f => Ok (k, mkfs (fs_fd f) (fs_name f) 0 (fs_exc f), false))           (* uios.h:87 *)
    | FdDestroy i => on_fs k fs i (fs_destroy false)
    | FdOther => Ok (other_opens k, fs)
    end.
  Fixpoint fd_run (s : kern * list fstr) (ops : list fdop) : outcome (kern * list fstr) :=
    match ops with
    | [] => Ok s
    | o :: t => s <- fd_step s o ;; fd_run s t
    end.
End Kernel.
(** A program starts with some descriptors open, none of them an fstream's. *)
Definition kern0 (tab : list (option nat)) (next : nat) (opens : list bool) (closes : list cans) : kern :=
  mkk tab next [] [] [] opens closes.
