(** * ExampleOrders: concrete orders used by the non-vacuity examples and
    counterexamples beside the theorems. *)
From Verif Require Import Base Order.

Lemma ltb_total : StrictTotal Nat.ltb.
Proof.
  split; [intros; apply Nat.ltb_irrefl|]. split.
  - intros x y z. rewrite !Nat.ltb_lt. lia.
  - intros x y. rewrite !Nat.ltb_ge. lia.
Qed.
Lemma ltb_weak : StrictWeak Nat.ltb.
Proof. apply total_weak, ltb_total. Qed.

(** Pairs compared by their first component only: equivalent but distinct
    elements exist, so stability is visible. *)
Definition key_lt (x y : nat * nat) : bool := Nat.ltb (fst x) (fst y).
Lemma key_lt_weak : StrictWeak key_lt.
Proof.
  unfold key_lt. split; [intros; apply Nat.ltb_irrefl|]. split.
  - intros x y z. rewrite !Nat.ltb_lt. lia.
  - intros x y z. rewrite !Nat.ltb_ge. lia.
Qed.
Definition gtb (x y : nat) : bool := Nat.ltb y x.
Lemma gtb_weak : StrictWeak gtb.
Proof.
  unfold gtb. split; [intros; apply Nat.ltb_irrefl|]. split.
  - intros x y z. rewrite !Nat.ltb_lt. lia.
  - intros x y z. rewrite !Nat.ltb_ge. lia.
Qed.

(** Ascending is decidable by computation for the examples. *)
Ltac asc := repeat (constructor; [|repeat (constructor; [reflexivity|]); constructor]); try constructor.
