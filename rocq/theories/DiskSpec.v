(** * DiskSpec: what a user expects of write_file and read_file. *)
From Verif Require Import Base StoreModel MemModel MemSpec FileModel FileSpec DiskModel.
From Coq Require Import ZArith.

(** The answers let [n] bytes through: the file opens, transfers go on until
    all is done, and the close succeeds, perhaps after interruptions. *)
Definition writes (s : list sysres) (n : nat) : Prop :=
  exists k u t c, s = SOk k :: u ++ t /\ Forall progress u /\ (u = [] \/ offered (removelast u) < n) /\ n <= offered u /\
    t = c ++ [SOk 0] /\ Forall (fun r => r = SIntr) c.
Definition reads (s : list sysres) (n : nat) : Prop :=
  exists k j u t c, s = SOk k :: SOk j :: u ++ t /\ Forall no_error u /\ (u = [] \/ offered_read (removelast u) < n) /\ n <= offered_read u /\
    t = c ++ [SOk 0] /\ Forall (fun r => r = SIntr) c.

(** ** Histories: blocks and files are lists of bytes. *)
Section Spec.
  Variable h0 : heap.
  Definition dspec : Type := list (list (option Z)) * list (option (list (option Z))).
  Definition file_of (fs : list (option (list (option Z)))) (f : nat) : option (list (option Z)) := nth f fs None.
  Definition dspec_step (st : dspec) (o : dop) : dspec :=
    let (ss, fs) := st in
    match o with
    | DMem o => (mspec_step h0 ss o, fs)
    | DWrite i f _ => (ss, put fs f (Some (get ss i)))
    | DRead i f _ => (match file_of fs f with Some c => put ss i c | None => ss end, fs)
    end.
  Definition dop_pre (st : dspec) (o : dop) : Prop :=
    let (ss, fs) := st in
    match o with
    | DMem o => mop_pre h0 ss o
    | DWrite i f s => i < length ss /\ f < length fs /\ writes s (length (get ss i))
    | DRead i f s => i < length ss /\ exists c, file_of fs f = Some c /\ f < length fs /\
        (Z.of_nat (length c) <= 2 ^ 31)%Z /\ reads s (length c)
    end.
  Fixpoint dspec_run (st : dspec) (ops : list dop) : dspec :=
    match ops with [] => st | o :: t => dspec_run (dspec_step st o) t end.
  Fixpoint dops_pre (st : dspec) (ops : list dop) : Prop :=
    match ops with [] => True | o :: t => dop_pre st o /\ dops_pre (dspec_step st o) t end.
End Spec.
Definition file_agrees (s l : option (list (option Z))) : Prop :=
  match s, l with Some a, Some b => agrees a b | None, None => True | _, _ => False end.
