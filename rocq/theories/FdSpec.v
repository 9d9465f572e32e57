(** * FdSpec: what a user expects of opening and closing files. *)
From Verif Require Import Base FdModel.
From Coq Require Import ZArith.

(** ** Open modes: what the bits of a mode ask for. *)
Definition asks (m b : Z) : bool := Z.testbit m b.
(** What the flags of open(2) mean. *)
Definition may_read (fl : Z) : Prop := Z.land fl O_ACCMODE = O_RDONLY \/ Z.land fl O_ACCMODE = O_RDWR.
Definition may_write (fl : Z) : Prop := Z.land fl O_ACCMODE = O_WRONLY \/ Z.land fl O_ACCMODE = O_RDWR.
Definition flag (fl b : Z) : Prop := Z.land fl b <> 0%Z.

(** ** Descriptors *)
(** No signal interrupts a close, or it leaves the descriptor open. *)
Definition quiet (keeps : bool) (closes : list cans) : Prop :=
  keeps = true \/ forall o, ~ In (CIntr o) closes.
(** Closing never fails, or no fstream throws when it does. *)
Definition throws_on_close (o : fdop) : Prop :=
  match o with FdExceptions _ v => Z.land v 5 <> 0%Z | _ => False end.
Definition forgiving (closes : list cans) (ops : list fdop) : Prop :=
  ~ In CErr closes \/ Forall (fun o => ~ throws_on_close o) ops.
(** Every file opened by an fstream has been closed by an fstream, or given
    back to the caller, once; and no other file has been closed. *)
Definition accounted (k : kern) : Prop :=
  NoDup (k_closed k ++ k_given k) /\ forall id, In id (k_mine k) <-> In id (k_closed k ++ k_given k).
(** Destroying all of [n] fstreams. *)
Definition destroy_all (n : nat) : list fdop := map FdDestroy (seq 0 n).
(** The operation concerns one of [n] fstreams. *)
Definition among (n : nat) (o : fdop) : Prop :=
  match o with
  | FdOpen i _ | FdClose i | FdDetach i | FdExceptions i _ | FdClear i | FdDestroy i => i < n
  | FdOther => True
  end.
(** The descriptors open at the start are distinct files with old numbers. *)
Definition sane (tab : list (option nat)) (next : nat) : Prop :=
  (forall i j id, nth i tab None = Some id -> nth j tab None = Some id -> i = j) /\
  (forall i id, nth i tab None = Some id -> id < next).
(** Each fstream that says it is open holds a descriptor of its own, whose file
    an fstream opened and nobody has closed or taken. *)
Definition holds_its_own (k : kern) (fs : list fstr) : Prop :=
  (forall i f fd, nth_error fs i = Some f -> fs_fd f = Some fd ->
     exists id, nth fd (k_tab k) None = Some id /\ In id (k_mine k) /\ ~ In id (k_closed k) /\ ~ In id (k_given k)) /\
  (forall i j f g fd, nth_error fs i = Some f -> nth_error fs j = Some g -> fs_fd f = Some fd -> fs_fd g = Some fd -> i = j).
(** The files of other people are still open. *)
Definition others_kept (k k' : kern) : Prop :=
  forall n id, nth n (k_tab k) None = Some id -> ~ In id (k_mine k') -> nth n (k_tab k') None = Some id.
