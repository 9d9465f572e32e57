(** * P_Bytes: property theorems for the byte-block primitives (C21). *)
From Verif Require Import Base UtilModel ByteModel ByteSpec ByteProofs ByteFacts.
From Coq Require Import ZArith.
Local Open Scope Z_scope.

(** Forward copy: right at every alignment, for disjoint or downward
    overlapping ranges. *)
Theorem C21_copy_n {A} (m : mem A) src n dest :
  0 <= src < 2 ^ 64 - 15 -> 0 <= n -> mapped m src n -> mapped m dest n ->
  dest <= src \/ disjoint src n dest n ->
  exists m', copy_n_fast m src n dest = Ok m' /\ copied m src n dest m'.
Proof.
  exact (fun H1 H2 H3 H4 H5 => match copy_n_fast_ok m src n dest H1 H2 H3 H4 H5 with
    ex_intro _ m' (conj E (conj C _)) => ex_intro _ m' (conj E C) end).
Qed.
Print Assumptions C21_copy_n.

Theorem C21_fill {A} (m : mem A) dest n v :
  0 <= dest < 2 ^ 64 - 15 -> 0 <= n -> mapped m dest n ->
  exists m', fill_n8_fast m dest n v = Ok m' /\ filled m dest n v m'.
Proof. exact (fill_n8_fast_ok m dest n v). Qed.
Print Assumptions C21_fill.

(** Backward copy leaves up to three bytes uncopied: when source and
    destination are congruent modulo 4 and the source does not start on a
    multiple of 4, the trailing bytes are taken three addresses too low
    (ualgobase.cc:151-156). *)
Theorem C21_copy_backward_refuted :
  exists (m m' : mem Z) first last result, first <= last <= result /\
    mapped m (first - 8) (result - first + 16) /\
    copy_backward_fast m first last result = Ok m' /\
    ~ copied m first (last - first) (result - (last - first)) m'.
Proof. exact backward_wrong. Qed.
Print Assumptions C21_copy_backward_refuted.

Theorem C21_rotate_refuted :
  exists (m m' : mem Z) buf first middle last, first <= middle <= last /\
    first = 1 + 16 * 63 /\
    mapped m (first - 8) (last - first + 16) /\ mapped m buf (last - first) /\
    disjoint (first - 8) (last - first + 16) buf (last - first) /\
    rotate_fast buf m first middle last = Ok m' /\ ~ rotated m first middle last m'.
Proof. exact rotate_wrong. Qed.
Print Assumptions C21_rotate_refuted.

(** A short block whose end is not a multiple of 4: the byte count wraps
    (ualgobase.cc:144-148) and the copy runs off the mapped memory. *)
Theorem C21_rotate_crash_refuted :
  exists (m : mem Z) buf first middle last, first <= middle <= last /\
    mapped m (first - 8) (last - first + 16) /\ mapped m buf (last - first) /\
    disjoint (first - 8) (last - first + 16) buf (last - first) /\
    rotate_fast buf m first middle last = UB.
Proof. exact rotate_crash. Qed.
Print Assumptions C21_rotate_crash_refuted.

(** Every two-byte backward copy whose source starts at 1 modulo 4 and whose
    destination is one higher. *)
Theorem C21_copy_backward_crash_refuted {A} (m : mem A) (first : Z) :
  4 <= first < 2 ^ 63 -> first mod 4 = 1 ->
  (exists a, a < first /\ 0 <= a /\ m a = None) ->
  copy_backward_fast m first (first + 2) (first + 3) = UB.
Proof. exact (backward_wraps m first). Qed.
Print Assumptions C21_copy_backward_crash_refuted.

(** Where the x86 backward copy is right; missing: exactly the cases above. *)
Theorem C21_copy_backward_partial {A} (m : mem A) first last result :
  0 <= first <= last -> last < 2 ^ 64 -> last mod 4 <= last - first ->
  (result - last) mod 4 <> 0 \/ first mod 4 = 0 ->
  mapped m first (last - first) -> mapped m (result - (last - first)) (last - first) ->
  last <= result \/ disjoint first (last - first) (result - (last - first)) (last - first) ->
  exists m', copy_backward_fast m first last result = Ok m' /\
    copied m first (last - first) (result - (last - first)) m'.
Proof.
  exact (fun H1 H2 H3 H4 H5 H6 H7 => match copy_backward_fast_ok m first last result H1 H2 H3 H4 H5 H6 H7 with
    ex_intro _ m' (conj E (conj C _)) => ex_intro _ m' (conj E C) end).
Qed.
Print Assumptions C21_copy_backward_partial.

(** Rotation on x86 when all three addresses are multiples of four, in
    particular for every vector of elements whose size is a multiple of 4. *)
Theorem C21_rotate_aligned_partial {A} buf (m : mem A) first middle last :
  0 <= first <= middle -> middle <= last -> last < 2 ^ 64 - 15 -> 0 <= buf < 2 ^ 64 - 15 ->
  first mod 4 = 0 -> middle mod 4 = 0 -> last mod 4 = 0 ->
  mapped m first (last - first) -> mapped m buf (Z.min (middle - first) (last - middle)) ->
  disjoint first (last - first) buf (Z.min (middle - first) (last - middle)) ->
  exists m', rotate_fast buf m first middle last = Ok m' /\ rotated m first middle last m' /\
    same_outside m first (last - first) buf (Z.min (middle - first) (last - middle)) m'.
Proof.
  intros H1 H2 H3 H4 F M L H5 H6 H7.
  destruct (rotate_fast_with_ok copy_backward_fast buf m first middle last H1 H2 H3 H4 H5 H6 H7) as (m' & E & R & S & _).
  - intros K1 K2 m1 B1 B2. apply copy_backward_fast_ok; try lia; auto. unfold two64. lia.
  - exact (ex_intro _ m' (conj E (conj R S))).
Qed.
Print Assumptions C21_rotate_aligned_partial.

(** Rotation on x86 at any alignment when the first half is not the longer
    one, or the backward copy is in its good case. *)
Theorem C21_rotate_any_partial {A} buf (m : mem A) first middle last :
  0 <= first <= middle -> middle <= last -> last < 2 ^ 64 - 15 -> 0 <= buf < 2 ^ 64 - 15 ->
  middle - first <= last - middle \/
  (middle mod 4 <= middle - first /\ ((last - middle) mod 4 <> 0 \/ first mod 4 = 0)) ->
  mapped m first (last - first) -> mapped m buf (Z.min (middle - first) (last - middle)) ->
  disjoint first (last - first) buf (Z.min (middle - first) (last - middle)) ->
  exists m', rotate_fast buf m first middle last = Ok m' /\ rotated m first middle last m' /\
    same_outside m first (last - first) buf (Z.min (middle - first) (last - middle)) m'.
Proof.
  intros H1 H2 H3 H4 G H5 H6 H7.
  destruct (rotate_fast_with_ok copy_backward_fast buf m first middle last H1 H2 H3 H4 H5 H6 H7) as (m' & E & R & S & _).
  - intros K1 K2 m1 B1 B2. apply copy_backward_fast_ok; try lia; auto; unfold two64; lia.
  - exact (ex_intro _ m' (conj E (conj R S))).
Qed.
Print Assumptions C21_rotate_any_partial.

(** Rotation on other targets, where copy_backward_fast is memmove: always. *)
Theorem C21_rotate_memmove {A} buf (m : mem A) first middle last :
  0 <= first <= middle -> middle <= last -> last < 2 ^ 64 - 15 -> 0 <= buf < 2 ^ 64 - 15 ->
  mapped m first (last - first) -> mapped m buf (Z.min (middle - first) (last - middle)) ->
  disjoint first (last - first) buf (Z.min (middle - first) (last - middle)) ->
  exists m', rotate_fast_with copy_backward_memmove buf m first middle last = Ok m' /\
    rotated m first middle last m' /\
    same_outside m first (last - first) buf (Z.min (middle - first) (last - middle)) m'.
Proof.
  intros H1 H2 H3 H4 H5 H6 H7.
  destruct (rotate_fast_with_ok copy_backward_memmove buf m first middle last H1 H2 H3 H4 H5 H6 H7) as (m' & E & R & S & _).
  - intros K1 K2 m1 B1 B2. apply copy_backward_memmove_ok; [lia|exact B1|exact B2].
  - exact (ex_intro _ m' (conj E (conj R S))).
Qed.
Print Assumptions C21_rotate_memmove.

(** A case with an unaligned head, one 32-byte block and a tail. *)
Example C21_example :
  mapped mem0 1005 60 /\ mapped mem0 1085 60 /\
  at_ (copy_n_fast mem0 1005 60 1085) 1085 = Some 1005 /\
  at_ (copy_n_fast mem0 1005 60 1085) 1144 = Some 1064 /\
  at_ (copy_n_fast mem0 1005 60 1085) 1145 = Some 1145 /\
  at_ (rotate_fast 1200 mem0 1008 1020 1024) 1008 = Some 1020 /\
  at_ (rotate_fast 1200 mem0 1008 1020 1024) 1012 = Some 1008 /\
  at_ (fill_n8_fast mem0 1005 60 7) 1064 = Some 7.
Proof. split; [apply mem0_mapped; lia|]. split; [apply mem0_mapped; lia|]. repeat split; vm_compute; reflexivity. Qed.
