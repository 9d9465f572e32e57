(** * DiskModel: write_file and read_file.

    A schedule answers the system calls one by one (open, fstat, read, write,
    close); when it ends the process is gone ([Crashed]) and only the file
    remains.  Bytes are of any type, so that a file can also hold
    indeterminate bytes of memory.  A crash is of the process: what the kernel
    has accepted is in the file. *)
From Verif Require Import Base StreamModel UtilModel StoreModel MemModel FileModel.
From Coq Require Import ZArith.

Inductive fres : Type := Done | Threw (x : exn) | Crashed.

(** open(2): any -1 is a failure (fstream.cc:110-114, 64-73; badbit throws). *)
Definition sys_opens (r : sysres) : bool := match r with SOk _ => true | _ => false end.

(** fstream.cc:117-128 with exceptions on; the descriptor is FdModel's matter.
    The remaining schedule is that after the call. *)
Fixpoint d_close (s : list sysres) : fres * list sysres :=
  match s with
  | [] => (Crashed, [])
  | SOk _ :: t => (Done, t)
  | SIntr :: t => d_close t
  | _ :: t => (Threw file_exception, t)
  end.
(** fstream.cc:48-54: the destructor closes too, if an exception left the file
    open; it does not throw. *)
Definition d_unwind (x : exn) (s : list sysres) : fres :=
  match fst (d_close s) with Crashed => Crashed | _ => Threw x end.

(** fstream.cc:169-188 [write] with exceptions on (allbadbits), at the end of
    the file [d]: the file, the result and the remaining schedule. *)
Fixpoint d_write {A} (s : list sysres) (d l : list A) : list A * fres * list sysres :=
  match l with
  | [] => (d, Done, s)
  | _ =>
      match s with
      | [] => (d, Crashed, [])
      | SOk k :: t =>
          let c := min k (length l) in
          match c with
          | O => (d, Threw stream_bounds, t)
          | _ => d_write t (d ++ firstn c l) (skipn c l)
          end
      | SIntr :: t => d_write t d l
      | SAgain :: t => (d, Done, t)
      | SErr :: t => (d, Threw file_exception, t)
      end
  end.
(** cmemlink.cc:50-57 [write_file]: the file afterwards ([None]: there is none)
    and the result.  The file is opened with O_CREAT and O_TRUNC (C95). *)
Definition write_file {A} (old : option (list A)) (l : list A) (s : list sysres) : option (list A) * fres :=
  match s with
  | [] => (old, Crashed)
  | r :: s =>
      if sys_opens r then
        let '(d, r, s) := d_write s [] l in
        (Some d, match r with
                 | Done => fst (d_close s)
                 | Threw x => d_unwind x s
                 | Crashed => Crashed
                 end)
      else (old, Threw file_exception)
  end.

(** fstream.cc:146-166 [read] of [n] bytes to [p] with exceptions on; [fin] is
    what is left of the file, [br] what has been read. *)
Fixpoint d_read (s : list sysres) (h : heap) (p : ptr) (n br : nat) (fin : list (option Z)) : outcome (heap * fres * list sysres) :=
  if br <? n then
    match s with
    | [] => Ok (h, Crashed, [])
    | SOk k :: t =>
        match firstn (min (S k) (n - br)) fin with
        | [] => Ok (h, Threw stream_bounds, t)
        | x => h <- store_n h (padd p (Z.of_nat br)) x ;; d_read t h p n (br + length x) (skipn (length x) fin)
        end
    | SIntr :: t | SAgain :: t => d_read t h p n br fin
    | SErr :: t => Ok (h, Threw file_exception, t)
    end
  else Ok (h, Done, s).

Section WithEnv.
  Variable e : env.
  Variable mfc : Z.
  (** memblock.cc:144-154 [read_file] of a file that has [fsize] bytes when its
      size is asked for and delivers [fin] when it is read.  Reading a string
      runs the same code (mfc = 1): memblock::reserve and memblock::resize are
      not virtual.  The state after an exception is the block's too. *)
  Definition read_file (h : heap) (m : mb) (fsize : nat) (fin : list (option Z)) (s : list sysres) : outcome (heap * mb * fres) :=
    match s with
    | [] => Ok (h, m, Crashed)
    | r :: s =>
        if sys_opens r then
          match s with
          | [] => Ok (h, m, Crashed)
          | SOk _ :: s =>                                              (* fstat: fstream.cc:191-211 *)
              ' (h, m) <- reserve e mfc h m (Z.of_nat fsize) false ;;
              ' (h, r, s) <- d_read s h (mptr m) fsize 0 fin ;;
              match r with
              | Done =>
                  match fst (d_close s) with
                  | Done => ' (h, m) <- resize e mfc h m (Z.of_nat fsize) true ;; Ok (h, m, Done)
                  | x => Ok (h, m, x)
                  end
              | Threw x => Ok (h, m, d_unwind x s)
              | Crashed => Ok (h, m, Crashed)
              end
          | _ :: s => Ok (h, m, d_unwind file_exception s)
          end
        else Ok (h, m, Threw file_exception)
    end.
End WithEnv.

(** ** Histories of memory blocks and files *)
Inductive dop : Type :=
| DMem (o : mop)
| DWrite (i f : nat) (s : list sysres)     (* block i .write_file (file f) *)
| DRead (i f : nat) (s : list sysres).     (* block i .read_file (file f) *)
Definition dstate : Type := heap * list mb * list (option (list (option Z))).
(** A history goes on only after operations that return. *)
Definition dstep (e : env) (st : dstate) (o : dop) : outcome dstate :=
  let '(h, ms, fs) := st in
  match o with
  | DMem o => ' (h, ms) <- mstep e (h, ms) o ;; Ok (h, ms, fs)
  | DWrite i f s =>
      m <- rd ms i ;; l <- mb_bytes h m ;; old <- rd fs f ;;
      match write_file old l s with
      | (d, Done) => fs <- wr fs f d ;; Ok (h, ms, fs)
      | (_, Threw x) => Exn x
      | (_, Crashed) => NoFuel
      end
  | DRead i f s =>
      m <- rd ms i ;; c <- rd fs f ;;
      match c with
      | None => Exn file_exception
      | Some c =>
          ' (h, m, r) <- read_file e 0 h m (length c) c s ;;
          match r with
          | Done => ms <- wr ms i m ;; Ok (h, ms, fs)
          | Threw x => Exn x
          | Crashed => NoFuel
          end
      end
  end.
Fixpoint drun (e : env) (st : dstate) (ops : list dop) : outcome dstate :=
  match ops with
  | [] => Ok st
  | o :: t => st <- dstep e st o ;; drun e st t
  end.
