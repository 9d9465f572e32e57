(** * LifeSpec: what a user expects of opening, closing and destroying an ofstream. *)
From Verif Require Import Base UtilModel StoreModel MemModel StringModel StreamModel FileModel FileSpec FdModel OStrModel OStrSpec LifeModel.
From Coq Require Import ZArith.
Local Open Scope Z_scope.

(** A file's turn: open() it as descriptor [ss_fd], where write(2) will answer
    [ss_sched]; use the stream; close(). *)
Record session := mkss { ss_fd : nat; ss_sched : list sysres; ss_ops : list oop; ss_close : list cans }.
Definition session_ops (x : session) : list lop :=
  LOpen (Some (ss_fd x, ss_sched x)) [] :: map LOp (ss_ops x) ++ [LClose (ss_close x)].
(** Several files in turn; the results of each. *)
Fixpoint srun (e : env) (nul : ptr) (fuel : nat) (ss : list session) (l : life) : outcome (life * list (list (res unit * Z))) :=
  match ss with
  | [] => Ok (l, [])
  | x :: t => ' (l, rs) <- lrun e nul fuel (session_ops x) l ;; ' (l, rss) <- srun e nul fuel t l ;; Ok (l, rs :: rss)
  end.
(** close() returned and the stream is good. *)
Definition closed_well (rs : list (res unit * Z)) : Prop := exists q, rs = q ++ [(Val tt, 0)].
(** [W] is what the operations of the session, with these results, issued. *)
Definition issued (x : session) (rs : list (res unit * Z)) (W : list Z) : Prop :=
  contributions (ss_ops x) (map fst (firstn (length (ss_ops x)) (tl rs))) W.
(** Every operation is smaller than the memory. *)
Definition moderate (ops : list oop) : Prop := Forall (fun o => Z.of_nat (length (bytes_of o)) < 2 ^ 30) ops.
(** The system accepts data: no error, no would-block. *)
Definition accepting (sched : list sysres) : Prop := Forall progress sched.
