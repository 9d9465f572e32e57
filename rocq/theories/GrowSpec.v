(** * GrowSpec: what room reserved in advance promises. *)
From Coq Require Import List ZArith Bool.
From Verif Require Import Base StoreModel VectorSpec VectorModel MemModel MemSpec StringModel StringSpec.
Local Open Scope Z_scope.

(** The statement makes block (string) [i] anew, or gives it other storage on purpose. *)
Definition m_replaces (i : nat) (o : mop) : Prop :=
  match o with
  | MMove a b | MSwap a b => a = i \/ b = i
  | MDealloc a | MLink a _ _ | MManage a _ | MShrink a => a = i
  | _ => False
  end.
Definition s_replaces (i : nat) (o : sop) : Prop :=
  match o with
  | SMoveOf a b | SSwap a b => a = i \/ b = i
  | SOfC a _ | SCopyOf a _ | SOfFill a _ _ | SSubstr a _ _ _ => a = i
  | _ => False
  end.
(** Throughout the program, block [i] never needs more than [cap] bytes. *)
Fixpoint m_within (h0 : heap) (cap : Z) (i : nat) (ss : list (list (option Z))) (ops : list mop) : Prop :=
  match ops with
  | [] => True
  | o :: t =>
      ~ m_replaces i o /\ (forall n x, o = MReserve i n x -> n <= cap) /\
      len (mspec_step h0 ss o) i <= cap /\ m_within h0 cap i (mspec_step h0 ss o) t
  end.
(** The same for string [i] and its terminator. *)
Fixpoint s_within (h0 : heap) (cap : Z) (i : nat) (ss : list (list (option Z))) (ops : list sop) : Prop :=
  match ops with
  | [] => True
  | o :: t =>
      ~ s_replaces i o /\ (forall n, o = SReserve i n -> n < cap) /\
      len (sspec_step h0 ss o) i < cap /\ s_within h0 cap i (sspec_step h0 ss o) t
  end.
(** A vector of elements of [es] bytes never needs more than [cap] bytes. *)
Fixpoint v_within {T} (dflt : T) (es cap : Z) (l : list T) (ops : list (vop T)) : Prop :=
  match ops with
  | [] => True
  | o :: t =>
      o <> OpShrink /\ o <> OpDeallocate /\ (forall n x, o = OpReserve n x -> es * Z.of_nat n <= cap) /\
      es * Z.of_nat (length (seq_step dflt l o)) <= cap /\ v_within dflt es cap (seq_step dflt l o) t
  end.

(** The blocks allocated since the heap was [h], and their bytes together. *)
Definition new_blocks (h h' : heap) : list blk := skipn (length h) h'.
Definition allocated (bs : list blk) : Z := fold_right (fun k s => Z.of_nat (length (bcells k)) + s) 0 bs.
