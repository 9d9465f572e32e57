(** * SysModel: fcntl, ioctl and memory mapped files through fstream (fstream.cc:214-263).

    The kernel's side: the status flags and access mode of the one descriptor
    of the stream, the table of mapped regions, and a schedule of answers; a
    call that the rules of the manual make fail, fails; any other may fail too
    when the schedule says so.  [k_wild] records that a call unmapped memory
    that is not one of the stream's mappings. *)
From Verif Require Import Base UtilModel FdModel.
From Coq Require Import ZArith List Bool.
Import ListNotations.
Local Open Scope Z_scope.

(** ** The kernel *)
Record sk := mksk {
  sk_open : bool;             (* the descriptor is open *)
  sk_flags : Z;               (* its status flags, with the access mode *)
  sk_maps : list (Z * Z);     (* the regions mapped: address and length *)
  sk_wild : bool;
  sk_ans : list (option Z) }. (* what the next calls answer: [None] is an error; mmap: the address *)
Definition next_ans (k : sk) : option Z := match sk_ans k with a :: _ => a | [] => None end.
Definition drop_ans (k : sk) : sk := mksk (sk_open k) (sk_flags k) (sk_maps k) (sk_wild k) (tl (sk_ans k)).
(** fcntl (2) F_GETFL and F_SETFL; the latter changes O_APPEND, O_NONBLOCK and
    a few more, never the access mode. *)
Definition settable : Z := Z.lor O_APPEND O_NONBLOCK.
Definition sys_getfl (k : sk) : sk * Z := (k, if sk_open k then sk_flags k else - 1).
Definition sys_setfl (k : sk) (f : Z) : sk * Z :=
  if sk_open k then
    match next_ans k with
    | Some _ => let k := drop_ans k in
        (mksk true (Z.lor (Z.ldiff (sk_flags k) settable) (Z.land f settable)) (sk_maps k) (sk_wild k) (sk_ans k), 0)
    | None => (drop_ans k, - 1)
    end
  else (k, - 1).
(** ioctl (2): whatever the device answers. *)
Definition sys_ioctl (k : sk) : sk * Z :=
  match next_ans k with Some r => (drop_ans k, r) | None => (drop_ans k, - 1) end.
(** mmap (2) of [n] bytes, PROT_READ | PROT_WRITE, MAP_SHARED: EINVAL if n is 0,
    EACCES unless the file is open for reading and writing; [None] is MAP_FAILED. *)
Definition page : Z := 4096.
Definition disjoint (a n : Z) (m : Z * Z) : bool := (a + n <=? fst m) || (fst m + snd m <=? a).
Definition sys_mmap (k : sk) (n : Z) : sk * option Z :=
  if sk_open k && (0 <? n) && (Z.land (sk_flags k) O_ACCMODE =? O_RDWR) then
    match next_ans k with
    | Some a =>
        let k := drop_ans k in
        if (0 <? a) && (a mod page =? 0) && (a + n <? 2 ^ 63) && forallb (disjoint a n) (sk_maps k) then
          (mksk (sk_open k) (sk_flags k) ((a, n) :: sk_maps k) (sk_wild k) (sk_ans k), Some a)
        else (k, None)
    | None => (drop_ans k, None)
    end
  else (k, None).
(** munmap (2): EINVAL for an address that is not a multiple of a page or for length 0. *)
Definition same_map (a n : Z) (m : Z * Z) : bool := (fst m =? a) && (snd m =? n).
Definition sys_munmap (k : sk) (a n : Z) : sk * Z :=
  if negb (a mod page =? 0) || (n =? 0) then (k, - 1)
  else
    match next_ans k with
    | Some _ =>
        let k := drop_ans k in
        if existsb (same_map a n) (sk_maps k)
        then (mksk (sk_open k) (sk_flags k) (filter (fun m => negb (same_map a n m)) (sk_maps k)) (sk_wild k) (sk_ans k), 0)
        else (mksk (sk_open k) (sk_flags k) (sk_maps k) true (sk_ans k), 0)
    | None => (drop_ans k, - 1)
    end.
(** msync (2). *)
Definition sys_msync (k : sk) (a n : Z) : sk * Z :=
  if negb (a mod page =? 0) then (k, - 1)
  else match next_ans k with Some _ => (drop_ans k, 0) | None => (drop_ans k, - 1) end.

(** ** The stream *)
(** uios.h:60-68: the bits. *)
Definition b_bad := 1. Definition b_eof := 2. Definition b_fail := 4.
Record fs := mkfs { f_st : Z; f_ex : Z; f_k : sk }.
(** A call returns, throws, or ends the program (an exception leaves a function
    that promises not to throw). *)
Inductive res (A : Type) := Ret (a : A) (s : fs) | Throw (s : fs) | Terminate.
Arguments Ret {A}. Arguments Throw {A}. Arguments Terminate {A}.
Definition rbind {A B} (m : res A) (f : A -> fs -> res B) : res B :=
  match m with Ret a s => f a s | Throw s => Throw s | Terminate => Terminate end.
Definition with_k (s : fs) (k : sk) : fs := mkfs (f_st s) (f_ex s) k.
(** fstream.cc:57-61, uios.h:92. *)
Definition f_set_and_throw (s : fs) (b : Z) : res unit :=
  let s := mkfs (Z.lor (f_st s) b) (f_ex s) (f_k s) in
  if Z.land (f_ex s) b =? 0 then Ret tt s else Throw s.
(** fstream.cc:214-220 [ioctl]. *)
Definition f_ioctl (s : fs) : res Z :=
  let '(k, rv) := sys_ioctl (f_k s) in
  let s := with_k s k in
  if rv <? 0 then rbind (f_set_and_throw s b_fail) (fun _ s => Ret rv s) else Ret rv s.
(** fstream.cc:223-229 [fcntl] with a request. *)
Definition f_fcntl (s : fs) (req : sk -> sk * Z) : res Z :=
  let '(k, rv) := req (f_k s) in
  let s := with_k s k in
  if rv <? 0 then rbind (f_set_and_throw s b_fail) (fun _ s => Ret rv s) else Ret rv s.
(** fstream.cc:231-237 [set_nonblock], which is noexcept. *)
Definition noexc {A} (m : res A) : res A := match m with Throw _ => Terminate | _ => m end.
Definition f_set_nonblock (s : fs) (v : bool) : res unit :=
  noexc (rbind (f_fcntl s sys_getfl) (fun g s =>
    let curf := Z.max 0 g in
    let curf := if v then Z.lor curf O_NONBLOCK else Z.ldiff curf O_NONBLOCK in
    rbind (f_fcntl s (fun k => sys_setfl k curf)) (fun _ s => Ret tt s))).
(** cmemlink.h:51-59: a link is an address and a size. *)
Definition link := (Z * Z)%type.
Definition no_link : link := (0, 0).
(** MAP_FAILED. *)
Definition map_failed : Z := - 1.
(** fstream.cc:242-248 [mmap]: the link is made also if the call failed. *)
Definition f_mmap (s : fs) (n : Z) : res link :=
  let '(k, r) := sys_mmap (f_k s) n in
  let s := with_k s k in
  match r with
  | Some a => Ret (a, n) s
  | None => rbind (f_set_and_throw s b_fail) (fun _ s => Ret (map_failed, n) s)
  end.
(** fstream.cc:251-256 [munmap]: the link is emptied also if the call failed and does not throw. *)
Definition f_munmap (s : fs) (l : link) : res link :=
  let '(k, r) := sys_munmap (f_k s) (fst l) (snd l) in
  let s := with_k s k in
  rbind (if r =? 0 then Ret tt s else f_set_and_throw s b_fail) (fun _ s => Ret no_link s).
(** fstream.cc:259-263 [msync]. *)
Definition f_msync (s : fs) (l : link) : res unit :=
  let '(k, r) := sys_msync (f_k s) (fst l) (snd l) in
  let s := with_k s k in
  if r =? 0 then Ret tt s else f_set_and_throw s b_fail.

(** ** Programs: links are kept in variables *)
Inductive sysop := XNonblock (v : bool) | XIoctl | XMap (i : nat) (n : Z) | XUnmap (i : nat) | XSync (i : nat) | XClear.
Definition vars := list link.
Definition var (v : vars) (i : nat) : link := nth i v no_link.
Fixpoint setvar (v : vars) (i : nat) (l : link) : vars :=
  match v, i with [], _ => [] | _ :: t, O => l :: t | x :: t, S i => x :: setvar t i l end.
Definition sys_step (o : sysop) (v : vars) (s : fs) : res vars :=
  match o with
  | XNonblock b => rbind (f_set_nonblock s b) (fun _ s => Ret v s)
  | XIoctl => rbind (f_ioctl s) (fun _ s => Ret v s)
  | XMap i n => rbind (f_mmap s n) (fun l s => Ret (setvar v i l) s)
  | XUnmap i => rbind (f_munmap s (var v i)) (fun l s => Ret (setvar v i l) s)
  | XSync i => rbind (f_msync s (var v i)) (fun _ s => Ret v s)
  | XClear => Ret v (mkfs 0 (f_ex s) (f_k s))
  end.
(** An exception is caught, and the program goes on; [None]: it was ended. *)
Fixpoint sys_run (ops : list sysop) (v : vars) (s : fs) : option (vars * fs) :=
  match ops with
  | [] => Some (v, s)
  | o :: ops =>
      match sys_step o v s with
      | Ret v s => sys_run ops v s
      | Throw s => sys_run ops v s
      | Terminate => None
      end
  end.
