(** * ChronoOpsSpec: the order of times given in different units, and how times are written. *)
From Verif Require Import Base UtilSpec ChronoModel ChronoSpec StrOpsSpec ChronoOpsModel.
From Coq Require Import ZArith List Ascii String.
Import ListNotations.
Local Open Scope string_scope.
Local Open Scope list_scope.
Local Open Scope Z_scope.

(** [c] ticks of [p] are a shorter (or earlier) time than [d] ticks of [q]:
    c * p < d * q. *)
Definition shorter (p : Z * Z) (c : Z) (q : Z * Z) (d : Z) : Prop :=
  c * fst p * snd q < d * fst q * snd p.
(** [r] ticks of [p] are the sum of [c] ticks of [p] and [d] ticks of [q]. *)
Definition sum_time (p : Z * Z) (r c : Z) (q : Z * Z) (d : Z) : Prop :=
  same_time p (r - c) q d.

(** [t] writes [n] nanoseconds as seconds with nine decimals. *)
Definition seconds_text (t : list Z) (n : Z) : Prop :=
  exists sg i f a b, t = sg ++ i ++ [46] ++ f /\ numeral 10 i a /\ numeral 10 f b /\ List.length f = 9%nat /\
    (sg = [] /\ n = a * 10 ^ 9 + b \/ sg = [45] /\ n = - (a * 10 ^ 9 + b)).
(** [t] is the number [n] in decimal followed by [sf]. *)
Definition number_and_unit (t : list Z) (n : Z) (sf : list Z) : Prop :=
  exists ds, t = ds ++ sf /\ number_at ds 10 n (Z.of_nat (List.length ds)).

(** The names of the units as written after a count, and how long each is in nanoseconds. *)
Definition codes (s : string) : list Z := map (fun a => Z.of_nat (nat_of_ascii a)) (list_ascii_of_string s).
Definition unit_word (u : unit_name) : string :=
  match u with
  | Nanoseconds => "_ns" | Microseconds => "_us" | Milliseconds => "_ms" | Seconds => "_s" | Minutes => "_min"
  | Hours => "_hours" | Days => "_days" | Weeks => "_weeks" | Years => "_years" | Months => "_months"
  | Centuries => "_centuries" | Millenia => "_millenia"
  end.
Definition unit_ns (u : unit_name) : Z :=
  match u with
  | Nanoseconds => 1 | Microseconds => 1000 | Milliseconds => 1000000 | Seconds => 1000000000
  | Minutes => 60 * 1000000000 | Hours => 3600 * 1000000000 | Days => 24 * 3600 * 1000000000
  | Weeks => 7 * 24 * 3600 * 1000000000
  | Years => 31557600 * 1000000000  (* 365.25 days *)
  | Months => 2629800 * 1000000000  (* a twelfth of that *)
  | Centuries => 100 * 31557600 * 1000000000 | Millenia => 1000 * 31557600 * 1000000000
  end.
