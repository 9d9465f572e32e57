(** * StrFmtModel: string::format and string::hash.

    The text that the C library's vsnprintf makes of the format and its
    arguments is given ([Some t]), or the conversion fails ([None], e.g. %ls
    with a character the locale cannot encode); the arguments do not point into
    the string. *)
From Verif Require Import Base UtilModel StoreModel MemModel StringModel StringFindModel.
From Coq Require Import ZArith.
Local Open Scope Z_scope.


(** C99 7.19.6.12 vsnprintf (p, n, ...): at most n-1 characters and a
    terminator are stored; nothing if n = 0; returns the full length, or a
    negative number (glibc: -1). *)
Definition vsnprintf (h : heap) (p : ptr) (n : Z) (t : option (list Z)) : outcome (heap * Z) :=
  match t with
  | None => Ok (h, -1)
  | Some t =>
      if n =? 0 then Ok (h, Z.of_nat (length t))
      else h <- store_n h p (map Some (firstn (Z.to_nat (Z.min (n - 1) (Z.of_nat (length t)))) t) ++ [Some 0]) ;;
           Ok (h, Z.of_nat (length t))
  end.

Section WithEnv.
  Variable e : env.
  Variable nul : ptr.
  (** ustring.cc:321-337 [vformat]; ustring.cc:340-347 [format].  The string
      and the return value. *)
  Fixpoint str_vformat (fuel : nat) (h : heap) (m : mb) (t : option (list Z)) : outcome (heap * mb * Z) :=
    match fuel with
    | O => NoFuel
    | S fuel' =>
        let wcap := to_int (mcap m) in
        ' (h, rv) <- vsnprintf h (mptr m) (u64 wcap) t ;;
        ' (h, m) <- str_resize e nul h m (u64 rv) ;;
        if wcap <=? rv then str_vformat fuel' h m t else Ok (h, m, rv)
    end.
  (** A history of the operations of StringModel and calls of format. *)
  Inductive fop : Type :=
  | FStr (o : sop)
  | FFormat (i : nat) (t : option (list Z)).
  Definition fstep (fuel : nat) (s : mstate) (o : fop) : outcome mstate :=
    match o with
    | FStr o => sstep e nul s o
    | FFormat i t => on s i (fun h m => ' (h, m, _) <- str_vformat fuel h m t ;; Ok (h, m))
    end.
  Fixpoint frun (fuel : nat) (s : mstate) (ops : list fop) : outcome mstate :=
    match ops with
    | [] => Ok s
    | o :: t => s' <- fstep fuel s o ;; frun fuel s' t
    end.
End WithEnv.

(** ustring.cc:386-393 [hash]: hashvalue_t is uint32_t (utypes.h:69); the
    bytes are char, signed on x86 and extended to 32 bits. *)
Definition schar (c : Z) : Z := if c <? 128 then c else c - 256.
Definition hash_step (h c : Z) : Z := u32 (schar c + Z.lor (u32 (Z.shiftl h 7)) (Z.shiftr h 25)).
Definition str_hash (l : list Z) : Z := fold_left hash_step l 0.
