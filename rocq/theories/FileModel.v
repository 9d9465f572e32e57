(** * FileModel: fstream's transfers to and from the operating system.

    The operating system is a schedule of results: each read(2) or write(2)
    call takes the next entry.  When the schedule is exhausted the call never
    returns, which is [NoFuel].  [f_out] is what the file has accepted, in
    order, since some earlier moment; [f_in] is what reading would deliver.
    Simplified: one file position is not tracked (lseek, open and close are
    not modelled), and sizes are natural numbers (a negative off_t is not). *)
From Verif Require Import Base StreamModel.
From Coq Require Import ZArith.

(** What one read(2) or write(2) call does. *)
Inductive sysres : Type :=
| SOk (k : nat)   (* transfers; for write at most [k] bytes, for read at most [k+1]:
                     read returns 0 only at the end of the file *)
| SIntr           (* -1, errno = EINTR *)
| SAgain          (* -1, errno = EAGAIN *)
| SErr.           (* -1, any other errno *)

(** fstream.h:24-67, uios.h:95-96.  [f_exc] is 0 after construction
    (fstream.cc:19-25, 28-35, 38-45). *)
Record file := mkf { f_state : Z; f_exc : Z; f_out : list Z; f_in : list Z; f_sched : list sysres }.

Definition f_good (f : file) : bool := (f_state f =? 0)%Z.                 (* uios.h:81 *)

(** What a system call returned: a transfer, or -1 with errno. *)
Inductive sret (A : Type) : Type := Got (a : A) | Intr | Again | Err.
Arguments Got {A} a. Arguments Intr {A}. Arguments Again {A}. Arguments Err {A}.

(** write(2) of [l]. *)
Definition sys_write (l : list Z) : io file (sret nat) :=
  fun f =>
    match f_sched f with
    | [] => NoFuel
    | SOk k :: t => let c := min k (length l) in
                    Ok (mkf (f_state f) (f_exc f) (f_out f ++ firstn c l) (f_in f) t, Val (Got c))
    | SIntr :: t => Ok (mkf (f_state f) (f_exc f) (f_out f) (f_in f) t, Val Intr)
    | SAgain :: t => Ok (mkf (f_state f) (f_exc f) (f_out f) (f_in f) t, Val Again)
    | SErr :: t => Ok (mkf (f_state f) (f_exc f) (f_out f) (f_in f) t, Val Err)
    end.
(** read(2) of at most [n] bytes. *)
Definition sys_read (n : nat) : io file (sret (list Z)) :=
  fun f =>
    match f_sched f with
    | [] => NoFuel
    | SOk k :: t => let c := min (S k) n in
                    Ok (mkf (f_state f) (f_exc f) (f_out f) (skipn c (f_in f)) t, Val (Got (firstn c (f_in f))))
    | SIntr :: t => Ok (mkf (f_state f) (f_exc f) (f_out f) (f_in f) t, Val Intr)
    | SAgain :: t => Ok (mkf (f_state f) (f_exc f) (f_out f) (f_in f) t, Val Again)
    | SErr :: t => Ok (mkf (f_state f) (f_exc f) (f_out f) (f_in f) t, Val Err)
    end.

(** uios.h:92 [set_and_throw]; [x] is what the caller throws if the mask
    contains one of the bits (fstream.cc:57-61, 163-164, 178-179). *)
Definition f_fail (b : Z) (x : exn) : io file unit :=
  fun f =>
    let f' := mkf (Z.lor (f_state f) b) (f_exc f) (f_out f) (f_in f) (f_sched f) in
    if (Z.land (f_exc f) b =? 0)%Z then Ok (f', Val tt) else Ok (f', Thrown x).

(** fstream.cc:169-188: [l] is the data not yet written, [bw] what was. *)
Fixpoint fwrite_loop (fuel : nat) (l : list Z) (bw : nat) : io file nat :=
  match fuel with
  | O => fun _ => NoFuel
  | S fuel' =>
      match l with
      | [] => ret bw                                             (* while (btw) *)
      | _ =>
          r <~ sys_write l ;;
          match r with
          | Got O => _ <~ f_fail (Z.lor eofbit failbit) stream_bounds ;; ret bw
          | Got c => fwrite_loop fuel' (skipn c l) (bw + c)
          | Intr => fwrite_loop fuel' l bw
          | Again => ret bw
          | Err => _ <~ f_fail failbit file_exception ;; ret bw
          end
      end
  end.
Definition fwrite (l : list Z) : io file nat :=
  fun f => fwrite_loop (S (length (f_sched f))) l O f.

(** fstream.cc:158: the do-while over EINTR. *)
Fixpoint fread_retry (fuel : nat) (n : nat) : io file (sret (list Z)) :=
  match fuel with
  | O => fun _ => NoFuel
  | S fuel' =>
      r <~ sys_read n ;;
      match r with
      | Intr => fread_retry fuel' n
      | _ => ret r
      end
  end.
(** fstream.cc:155-166: the bytes stored; their number is returned. *)
Definition freadsome (n : nat) : io file (list Z) :=
  fun f =>
    (r <~ fread_retry (S (length (f_sched f))) n ;;
     match r with
     | Got [] => _ <~ f_fail (Z.lor eofbit failbit) stream_bounds ;; ret []
     | Got d => ret d
     | Again => ret []
     | _ => _ <~ f_fail failbit file_exception ;; ret []
     end) f.

(** Storing [d] at offset [i] of the caller's buffer. *)
Definition buf_store (buf : list Z) (i : nat) (d : list Z) : option (list Z) :=
  if i + length d <=? length buf then Some (firstn i buf ++ d ++ skipn (i + length d) buf) else None.

(** fstream.cc:146-152, into a caller's buffer. *)
Fixpoint fread_loop (fuel : nat) (n br : nat) : io (file * list Z) nat :=
  match fuel with
  | O => fun _ => NoFuel
  | S fuel' =>
      fun s =>
        let '(f, buf) := s in
        if (br <? n) && f_good f then
          match freadsome (n - br) f with
          | Ok (f', Val d) =>
              match buf_store buf br d with
              | Some buf' => fread_loop fuel' n (br + length d) (f', buf')
              | None => UB
              end
          | Ok (f', Thrown x) => Ok ((f', buf), Thrown x)
          | UB => UB
          | Exn x => Exn x
          | NoFuel => NoFuel
          end
        else Ok ((f, buf), Val br)
  end.
Definition fread (n : nat) : io (file * list Z) nat :=
  fun s => fread_loop (S (length (f_sched (fst s)))) n O s.
