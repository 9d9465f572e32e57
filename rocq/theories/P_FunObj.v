(** * P_FunObj: function objects with a memory (C192, C193). *)
From Verif Require Import Base FunObjModel FunObjSpec FunObjProofs.

(** ** C192: for_each, generate, generate_n, transform, accumulate *)

(** The calls are made on the elements one after the other from the first to
    the last, once each, on one and the same function object, which comes back
    with what it has become; after a call that throws none is made, and nothing
    but the elements of the range ever changes. *)
Theorem C192_for_each {A W} (f : W -> A -> W * A * bool) (pre l post : list A) w :
  fo_for_each f (length l) (pre ++ l ++ post) (length pre) w =
  let '(w', l', ok) := run_on f w l in Ok (pre ++ l' ++ post, w', when ok tt).
Proof. apply for_each_ok. Qed.
Print Assumptions C192_for_each.

Theorem C192_generate {A W} (gen : W -> unit -> W * option A) (pre l post : list A) w :
  let '(w', ys, ok) := run_calls gen w (repeat tt (length l)) in
  fo_generate gen (length l) (pre ++ l ++ post) (length pre) w = Ok (pre ++ over ys l ++ post, w', when ok tt) /\
  fo_generate_n gen (length l) (pre ++ l ++ post) (length pre) w = Ok (pre ++ over ys l ++ post, w', when ok (length pre + length l)).
Proof.
  pose proof (generate_ok gen l pre post w) as H1. pose proof (generate_n_ok gen l pre post w) as H2.
  destruct (run_calls gen w (repeat tt (length l))) as [[w' ys] ok]. now split.
Qed.
Print Assumptions C192_generate.

(** transform to the range itself, to one after it, and to one before it. *)
Theorem C192_transform {A W} (op : W -> A -> W * option A) (pre l mid d post : list A) w : length d = length l ->
  let '(w', ys, ok) := run_calls op w l in
  fo_transform op (length l) (pre ++ l ++ post) (length pre) (length pre) w =
    Ok (pre ++ over ys l ++ post, w', when ok (length pre + length l)) /\
  fo_transform op (length l) (pre ++ l ++ mid ++ d ++ post) (length pre) (length pre + length l + length mid) w =
    Ok (pre ++ l ++ mid ++ over ys d ++ post, w', when ok (length pre + length l + length mid + length d)) /\
  fo_transform op (length l) (pre ++ d ++ mid ++ l ++ post) (length pre + length d + length mid) (length pre) w =
    Ok (pre ++ over ys d ++ mid ++ l ++ post, w', when ok (length pre + length d)).
Proof.
  intros Hd. pose proof (transform_in_place op l pre post w) as H1. pose proof (transform_after op l pre mid d post w Hd) as H2.
  pose proof (transform_before op l pre mid d post w Hd) as H3.
  destruct (run_calls op w l) as [[w' ys] ok]. now repeat split.
Qed.
Print Assumptions C192_transform.

Theorem C192_transform2 {A W} (op : W -> A * A -> W * option A) (p1 l1 p2 l2 p3 d p4 : list A) w :
  length l2 = length l1 -> length d = length l1 ->
  fo_transform2 op (length l1) (p1 ++ l1 ++ p2 ++ l2 ++ p3 ++ d ++ p4) (length p1) (length p1 + length l1 + length p2)
    (length p1 + length l1 + length p2 + length l2 + length p3) w =
  let '(w', ys, ok) := run_calls op w (combine l1 l2) in
  Ok (p1 ++ l1 ++ p2 ++ l2 ++ p3 ++ over ys d ++ p4, w',
      when ok (length p1 + length l1 + length p2 + length l2 + length p3 + length d)).
Proof. intros H2 Hd. now apply transform2_ok. Qed.
Print Assumptions C192_transform2.

Theorem C192_accumulate {A B W} (op : W -> B * A -> W * option B) (pre l post : list A) init w :
  fo_accumulate op (length l) (pre ++ l ++ post) (length pre) init w =
  Ok (fold_left (fun s x => match s with
                            | (w, Some acc) => op w (acc, x)
                            | (w, None) => (w, None)
                            end) l (w, Some init)).
Proof. apply accumulate_ok. Qed.
Print Assumptions C192_accumulate.

(** What one after the other means: a function object that writes down its
    arguments has, if no call threw, written down the range; otherwise the
    range up to the element whose call threw. *)
Theorem C192_order {A W Y} (c : W -> A -> W * option Y) (l : list A) w :
  let '(w', ys, ok) := run_calls c w l in
  run_calls (logged c) ([], w) l = ((if ok then l else firstn (S (length ys)) l), w', ys, ok) /\
  (ok = true -> length ys = length l) /\ (ok = false -> length ys < length l).
Proof.
  pose proof (logged_calls c l [] w) as H. destruct (run_calls c w l) as [[w' ys] ok] eqn:E.
  pose proof (calls_length c l w w' ys ok E) as L. cbn [app] in H.
  split; [rewrite H; destruct ok; [now rewrite firstn_all|reflexivity]|].
  split; intros ->; exact L.
Qed.
Print Assumptions C192_order.

(** A counter that throws at the third call; a numbering function. *)
Example C192_case :
  fo_for_each (fun w x => (S w, x + 10 * w, Nat.eqb w 3)) 4 [7; 1; 2; 3; 4; 8] 1 1 = Ok ([7; 11; 22; 33; 4; 8], 4, None) /\
  fo_generate_n (fun w _ => (S w, Some w)) 3 [0; 0; 0; 0; 0] 1 5 = Ok ([0; 5; 6; 7; 0], 8, Some 4) /\
  fo_transform (fun w x => (w + x, Some (w + x))) 3 [1; 2; 3] 0 0 0 = Ok ([1; 3; 6], 6, Some 3) /\
  fo_transform2 (fun w p => (S w, Some (fst p * snd p))) 2 [2; 3; 5; 7; 0; 0] 0 2 4 0 = Ok ([2; 3; 5; 7; 10; 21], 2, Some 6).
Proof. repeat split. Qed.

(** ** C193: predicates *)

Theorem C193_count_find {A W} (pred : W -> A -> W * option bool) (pre l post : list A) w :
  (let '(w', ans, ok) := run_calls pred w l in
   fo_count_if pred (length l) (pre ++ l ++ post) (length pre) 0 w = Ok (w', when ok (length (answered true l ans)))) /\
  (let r := fo_find_if pred (length l) (pre ++ l ++ post) (length pre) w in
   (exists w' ans, run_calls pred w l = (w', ans, true) /\ Forall (eq false) ans /\ r = Ok (w', Some (length pre + length l))) \/
   (exists k w' ans, k < length l /\ run_calls pred w (firstn (S k) l) = (w', ans ++ [true], true) /\ Forall (eq false) ans /\
      length ans = k /\ r = Ok (w', Some (length pre + k))) \/
   (exists w' ans, run_calls pred w l = (w', ans, false) /\ Forall (eq false) ans /\ r = Ok (w', None))).
Proof.
  split; [|apply find_if_ok]. pose proof (count_if_ok pred l pre post 0 w) as H.
  destruct (run_calls pred w l) as [[w' ans] ok]. exact H.
Qed.
Print Assumptions C193_count_find.

Theorem C193_filters {A W} (pred : W -> A -> W * option bool) (pre l mid d post : list A) v w : length l <= length d ->
  let '(w', ans, ok) := run_calls pred w l in
  fo_copy_if pred (length l) (pre ++ l ++ mid ++ d ++ post) (length pre) (length pre + length l + length mid) w =
    Ok (pre ++ l ++ mid ++ over (answered true l ans) d ++ post, w',
        when ok (length pre + length l + length mid + length (answered true l ans))) /\
  fo_remove_copy_if pred (length l) (pre ++ l ++ mid ++ d ++ post) (length pre) (length pre + length l + length mid) w =
    Ok (pre ++ l ++ mid ++ over (answered false l ans) d ++ post, w',
        when ok (length pre + length l + length mid + length (answered false l ans))) /\
  fo_remove_if pred (length l) (pre ++ l ++ post) (length pre) w =
    Ok (pre ++ over (answered false l ans) l ++ post, w', when ok (length pre + length (answered false l ans))) /\
  fo_replace_if pred (length l) (pre ++ l ++ post) (length pre) v w =
    Ok (pre ++ over (map (fun p : A * bool => if snd p then v else fst p) (combine l ans)) l ++ post, w', when ok tt).
Proof.
  intros Hd. pose proof (copy_if_after pred l pre mid d post w Hd) as H1.
  pose proof (remove_copy_if_after pred l pre mid d post w Hd) as H2.
  pose proof (remove_if_ok pred l pre post w) as H3. pose proof (replace_if_ok pred v l pre post w) as H4.
  destruct (run_calls pred w l) as [[w' ans] ok]. now repeat split.
Qed.
Print Assumptions C193_filters.

(** Every third element; the predicate counts its calls. *)
Example C193_case : let third := fun w (_ : nat) => (S w, Some (Nat.eqb (w mod 3) 2)) in
  fo_remove_if third 7 [1; 2; 3; 4; 5; 6; 7] 0 0 = Ok ([1; 2; 4; 5; 7; 6; 7], 7, Some 5) /\
  fo_count_if third 7 [1; 2; 3; 4; 5; 6; 7] 0 0 0 = Ok (7, Some 2) /\
  fo_find_if third 7 [1; 2; 3; 4; 5; 6; 7] 0 0 = Ok (3, Some 2) /\
  fo_copy_if third 3 [1; 2; 3; 0; 0; 0] 0 3 0 = Ok ([1; 2; 3; 3; 0; 0], 3, Some 4) /\
  fo_replace_if third 4 [1; 2; 3; 4] 0 9 0 = Ok ([1; 2; 9; 4], 4, Some tt).
Proof. cbv zeta. repeat split. Qed.
