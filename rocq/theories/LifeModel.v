(** * LifeModel: an ofstream through several files, from construction to
    destruction.

    The answers of open(2) and close(2) are part of the operation; an open file
    comes with the answers its write(2) calls will get.  A close(2) for which
    there is no answer never returns ([NoFuel]).  Simplified: the file's name
    and the descriptor table are in FdModel; only this stream writes to the
    descriptor. *)
From Verif Require Import Base UtilModel StoreModel MemModel StringModel StreamModel FileModel FdModel OStrModel.
From Coq Require Import ZArith.
Local Open Scope Z_scope.

(** ofstream.h:16-40; fstream.h:64-66.  [l_fd] is [_fd] ([None]: -1); [l_done]
    lists the descriptors this stream has closed, with what each accepted. *)
Record life := mkl { l_s : ost; l_fd : option nat; l_done : list (nat * list Z) }.
Definition on_s (f : ost -> ost) (l : life) : life := mkl (f (l_s l)) (l_fd l) (l_done l).
Definition put_fstate (v : Z) (s : ost) : ost :=
  sput_file (mkf v (f_exc (s_file s)) (f_out (s_file s)) (f_in (s_file s)) (f_sched (s_file s))) s.
(** write(2) to descriptor -1 fails with EBADF: one failure per operation is
    enough, because the file object remembers it (ofstream.cc:81). *)
Definition no_file (l : life) : life :=
  match l_fd l with
  | Some _ => l
  | None => on_s (fun s => sput_file (mkf (f_state (s_file s)) (f_exc (s_file s)) (f_out (s_file s)) (f_in (s_file s)) [SErr]) s) l
  end.
(** fstream.cc:76-80 [detach], when the descriptor has been closed. *)
Definition l_detach (fd : nat) (l : life) : life :=
  let f := s_file (l_s l) in
  mkl (sput_file (mkf (f_state f) (f_exc f) [] [] []) (l_s l)) None (l_done l ++ [(fd, f_out f)]).
(** fstream.cc:117-128 [fstream::close]. *)
Fixpoint l_fclose (answers : list cans) (fd : nat) (l : life) : outcome (life * res unit) :=
  match answers with
  | [] => NoFuel
  | COk :: _ => Ok (l_detach fd l, Val tt)
  | CIntr _ :: t => l_fclose t fd l
  | CErr :: _ =>
      let b := Z.lor badbit failbit in
      let l' := on_s (fun s => put_fstate (Z.lor (f_state (s_file s)) b) s) l in
      if Z.land (f_exc (s_file (l_s l))) b =? 0 then Ok (l_detach fd l', Val tt) else Ok (l', Thrown file_exception)
  end.
Definition file_close (answers : list cans) (l : life) : outcome (life * res unit) :=
  match l_fd l with
  | None => Ok (l, Val tt)
  | Some fd => l_fclose answers fd l
  end.
(** fstream.cc:64-73 [attach], 110-114 [open]: [a] is what open(2) returned. *)
Definition file_open (a : option (nat * list sysres)) (answers : list cans) (l : life) : outcome (life * res unit) :=
  let l := on_s (put_fstate 0) l in
  let l' := match a with None => on_s (put_fstate badbit) l | Some _ => l end in
  if match a with None => negb (Z.land (f_exc (s_file (l_s l))) badbit =? 0) | Some _ => false end then Ok (l', Thrown file_exception)
  else
    ' (l, r) <- file_close answers l' ;;
    match r with
    | Thrown x => Ok (l, Thrown x)
    | Val _ =>
        let f := s_file (l_s l) in
        let sched := match a with Some (_, sched) => sched | None => [] end in
        Ok (mkl (sput_file (mkf (f_state f) (f_exc f) (f_out f) (f_in f) sched) (l_s l))
                (match a with Some (fd, _) => Some fd | None => None end) (l_done l), Val tt)
    end.

Section WithEnv.
  Variable e : env.
  Variable nul : ptr.
  Variable fuel : nat.                (* the rounds of flush *)

  (** A member function of the stream. *)
  Definition on_stream (m : io ost unit) (l : life) : outcome (life * res unit) :=
    let l := no_file l in
    match m (l_s l) with
    | Ok (s, r) => Ok (mkl s (l_fd l) (l_done l), r)
    | UB => UB | Exn x => Exn x | NoFuel => NoFuel
    end.
  (** ofstream.h:22 [open], ofstream.h:27 [clear]. *)
  Definition l_open (a : option (nat * list sysres)) (answers : list cans) (l : life) : outcome (life * res unit) :=
    ' (l, r) <- file_open a answers l ;;
    match r with
    | Thrown x => Ok (l, Thrown x)
    | Val _ => on_stream (of_clear (f_state (s_file (l_s l)))) l
    end.
  (** ofstream.cc:55-60 [close]. *)
  Definition l_close (answers : list cans) (l : life) : outcome (life * res unit) :=
    ' (l, r) <- on_stream (fun s => (_ <~ of_clear (f_state (s_file s)) ;; of_flush e nul fuel) s) l ;;
    match r with
    | Thrown x => Ok (l, Thrown x)
    | Val _ => file_close answers l
    end.
  (** ofstream.cc:47-52 [~ofstream], then fstream.cc:48-54 [~fstream], whose
      close() can not throw.  The buffer goes with the stream. *)
  Definition l_destroy (answers : list cans) (l : life) : outcome life :=
    ' (l, _) <- on_stream (of_flush e nul fuel) l ;;
    match l_fd l with
    | Some fd =>
        if (fd <=? 2)%nat then Ok (mkl (l_s l) None (l_done l))
        else ' (l, _) <- l_fclose answers fd (on_s (fun s => sput_file (mkf 0 0 (f_out (s_file s)) (f_in (s_file s)) (f_sched (s_file s))) s) l) ;; Ok l
    | None => Ok l
    end.

  (** ** Histories: an exception ends one operation; the caller carries on. *)
  Inductive lop : Type :=
  | LOp (o : oop)
  | LOpen (a : option (nat * list sysres)) (answers : list cans)
  | LClose (answers : list cans).
  Definition lstep (o : lop) (l : life) : outcome (life * res unit) :=
    match o with
    | LOp o => on_stream (of_step e nul fuel o) l
    | LOpen a c => l_open a c l
    | LClose c => l_close c l
    end.
  (** The results, each with the stream's state after the operation. *)
  Fixpoint lrun (ops : list lop) (l : life) : outcome (life * list (res unit * Z)) :=
    match ops with
    | [] => Ok (l, [])
    | o :: t => ' (l, r) <- lstep o l ;; ' (l', rs) <- lrun t l ;; Ok (l', (r, s_state (l_s l)) :: rs)
    end.
  (** ofstream.cc:22-27: no file. *)
  Definition l_new (h : heap) : outcome life :=
    s <- of_default e nul h (mkf 0 0 [] [] []) ;; Ok (mkl s None []).
  (** ofstream.cc:30-36, 39-44: a descriptor, or the name of a file that open(2) opened. *)
  Definition l_new_fd (h : heap) (fd : nat) (sched : list sysres) : outcome life :=
    s <- of_default e nul h (mkf 0 0 [] [] sched) ;; Ok (mkl s (Some fd) []).
  Definition l_new_named (h : heap) (fd : nat) (sched : list sysres) : outcome life :=
    s <- of_named e nul h (mkf 0 0 [] [] sched) ;; Ok (mkl s (Some fd) []).
End WithEnv.
