(** * ChronoSpec: what times and durations mean. *)
From Verif Require Import Base UtilSpec ChronoModel.
From Coq Require Import ZArith.
Local Open Scope Z_scope.

(** A value of a signed 64-bit type. *)
Definition int64 (x : Z) : Prop := - 2 ^ 63 <= x < 2 ^ 63.

(** A period: a positive fraction of a second in lowest terms. *)
Definition period (p : Z * Z) : Prop := lowest p /\ 0 < fst p.

(** The number of whole ticks of [q] in [c] ticks of [p], fractions of a tick
    dropped (c * p / q rounded towards zero). *)
Definition whole_ticks (p q : Z * Z) (c : Z) : Z :=
  Z.quot (c * fst p * snd q) (snd p * fst q).
(** [c] ticks of [p] last exactly as long as [d] ticks of [q]. *)
Definition same_time (p : Z * Z) (c : Z) (q : Z * Z) (d : Z) : Prop :=
  c * fst p * snd q = d * fst q * snd p.
(** [p] is a whole multiple of [q]. *)
Definition multiple (p q : Z * Z) : Prop := exists k, fst p * snd q = k * (snd p * fst q).

(** The nanoseconds a seconds-and-nanoseconds pair stands for. *)
Definition ns (t : hrtime) : Z := tv_sec t * 10 ^ 9 + tv_nsec t.
(** The nanoseconds are a proper fraction of a second. *)
Definition normal (t : hrtime) : Prop := 0 <= tv_nsec t < 10 ^ 9.
(** Times within about 146 billion years of the epoch: the sum and the
    difference of two of them can be represented. *)
Definition moderate (t : hrtime) : Prop := - 2 ^ 62 < tv_sec t < 2 ^ 62.
