(** * OSeekModel: ostringstream with seekp and str() at any time. *)
From Coq Require Import List ZArith.
From Verif Require Import Base UtilModel StoreModel MemModel StringModel StreamModel FileModel OStrModel.
Import ListNotations.
Local Open Scope Z_scope.

Inductive seekdir := Beg | Cur | End.
(** mostream.h:177-184 [seekp], 159-168 [seek]; uoff_t is 64 bits wide. *)
Definition s_seekp_dir (p : Z) (d : seekdir) : io ost unit :=
  fun s => s_seekp (u64 (match d with Beg => p | Cur => s_pos s + p | End => s_vsize s - p end)) s.

Inductive xop : Type :=
| XOut (o : oop)                      (* what C51 is about *)
| XSeek (p : Z) (d : seekdir)         (* seekp *)
| XStr.                               (* str () *)
(** What an operation shows to the program: the text, for str(). *)
Inductive shown := Nothing | Text (l : list (option Z)) | Failed (x : exn).

Section WithEnv.
  Variable e : env.
  Variable nul : ptr.
  (** sostream.h:66, 70 [str, seekp] and OStrModel's operations. *)
  Definition xstep (o : xop) (s : ost) : outcome (ost * shown) :=
    match o with
    | XOut o => ' (s, r) <- oss_step e nul o s ;; Ok (s, match r with Val _ => Nothing | Thrown x => Failed x end)
    | XSeek p d => ' (s, r) <- s_seekp_dir p d s ;; Ok (s, match r with Val _ => Nothing | Thrown x => Failed x end)
    | XStr => ' (s, r) <- oss_str e nul s ;; Ok (s, match r with Val l => Text l | Thrown x => Failed x end)
    end.
  Fixpoint xrun (ops : list xop) (s : ost) : outcome (ost * list shown) :=
    match ops with
    | [] => Ok (s, [])
    | o :: t => ' (s, r) <- xstep o s ;; ' (s, rs) <- xrun t s ;; Ok (s, r :: rs)
    end.
End WithEnv.
