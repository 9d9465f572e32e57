(** * XferSpec: transfers between streams. *)
From Coq Require Import List ZArith Bool.
From Verif Require Import Base StoreModel StreamModel StreamSpec.
Local Open Scope Z_scope.

(** What has been written to an ostream, what is still to be read from an istream. *)
Definition written_part (s : ostream) : list Z := firstn (Z.to_nat (opos s)) (odata s).
Definition unread (s : istream) : list Z := skipn (Z.to_nat (ipos s)) (idata s).
Definition space (s : ostream) : Z := Z.of_nat (length (odata s)) - opos s.

(** [l] was appended to the stream and nothing else changed. *)
Definition appended (s s' : ostream) (l : list Z) : Prop :=
  written_part s' = written_part s ++ l /\
  skipn (Z.to_nat (opos s')) (odata s') = skipn (Z.to_nat (opos s')) (odata s) /\
  oaddr s' = oaddr s /\ ostate s' = ostate s /\ oexc s' = oexc s /\ length (odata s') = length (odata s) /\
  opos s' = opos s + Z.of_nat (length l).
(** Nothing but the state flags changed. *)
Definition untouched (s s' : ostream) : Prop :=
  odata s' = odata s /\ opos s' = opos s /\ oaddr s' = oaddr s /\ oexc s' = oexc s.
Definition at_end (i i' : istream) : Prop :=
  idata i' = idata i /\ ipos i' = Z.of_nat (length (idata i)) /\ istate i' = istate i /\ iexc i' = iexc i.

(** Offsets at which byte blocks of any size can be rotated: all word aligned,
    or the part that moves up is not longer than the part that moves down. *)
Definition steady (first middle last : Z) : Prop :=
  (first mod 4 = 0 /\ middle mod 4 = 0) \/ middle - first <= last - middle.
(** The buffer is word aligned and below the stack, which does not wrap. *)
Definition env_for (e : env) (s : ostream) : Prop :=
  let n := Z.of_nat (length (odata s)) in
  oaddr s mod 4 = 0 /\ oaddr s + n <= stack_at e /\ stack_at e + n < 2 ^ 64 - 15.
