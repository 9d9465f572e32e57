(** * StrFmtSpec: what format should do, in histories with the other operations. *)
From Coq Require Import List ZArith Bool.
From Verif Require Import Base StoreModel VectorSpec MemModel MemSpec StringModel StringSpec StrFmtModel.
Local Open Scope Z_scope.

Section Spec.
  Variable h0 : heap.
  (** format replaces the string by the formatted text. *)
  Definition fspec_step (ss : list (list (option Z))) (o : fop) : list (list (option Z)) :=
    match o with
    | FStr o => sspec_step h0 ss o
    | FFormat i (Some t) => put ss i (map Some t)
    | FFormat i None => ss
    end.
  Fixpoint fspec_run (ss : list (list (option Z))) (ops : list fop) : list (list (option Z)) :=
    match ops with [] => ss | o :: t => fspec_run (fspec_step ss o) t end.
  (** The conversion succeeds and its text is below 2^31 - 1 bytes. *)
  Definition fop_pre (ss : list (list (option Z))) (o : fop) : Prop :=
    match o with
    | FStr o => sop_pre h0 ss o
    | FFormat i (Some t) => (i < length ss)%nat /\ Z.of_nat (length t) + 1 < 2 ^ 31
    | FFormat i None => False
    end.
  Fixpoint fops_pre (ss : list (list (option Z))) (ops : list fop) : Prop :=
    match ops with [] => True | o :: t => fop_pre ss o /\ fops_pre (fspec_step ss o) t end.
End Spec.
(** The string has less than 2^31 bytes allocated, and if the text is empty it
    has storage of its own. *)
Definition fcareful_op (h0 : heap) (ss : list (list (option Z))) (ms : list mb) (o : fop) : Prop :=
  match o with
  | FStr o => careful_op h0 ss ms o
  | FFormat i t => forall m, nth_error ms i = Some m -> mcap m < 2 ^ 31 /\ (t = Some [] -> is_linked m = false)
  end.
Fixpoint fcareful (e : env) (nul : ptr) (fuel : nat) (h0 : heap) (ss : list (list (option Z))) (s : mstate) (ops : list fop) : Prop :=
  match ops with
  | [] => True
  | o :: t => fcareful_op h0 ss (snd s) o /\
      forall s', fstep e nul fuel s o = Ok s' -> fcareful e nul fuel h0 (fspec_step h0 ss o) s' t
  end.
