(** * P_Own: theorems C223, C224: objects that own each other. *)
From Verif Require Import Base OwnModel OwnSpec OwnProofs.

(** ** C223 *)

(** Any program that names only places that exist runs without undefined
    behaviour, its variables are what the specification (in which nothing is
    ever deleted) says, no object is deleted twice, and every object that can
    be reached exists and its members are what the specification says. *)
Theorem C223_program n ops g : graph_run (graph0 n) ops = Some g ->
  exists s trs, own_run (own0 n) ops = Ok (s, trs) /\ o_vars s = g_vars g /\ NoDup (concat trs) /\
    forall c, reachable g c -> ~ In c (concat trs) /\
      exists k, nth_error (o_cells s) c = Some (Some k) /\ nth_error (g_objs g) c = Some (fields k).
Proof.
  intros R. destruct (run_agr ops _ _ _ (agr0 n) R) as (s & trs & E & A & N & D & _ & _). exists s, trs.
  split; [exact E|]. split; [exact (agr_vars _ _ _ _ A)|]. split; [exact N|]. intros c Rc.
  destruct (reach_live s g c A Rc) as (k & Hk). split.
  - intros Q. assert (nth_error (o_cells s) c = Some None) by (apply D; tauto). congruence.
  - exists k. split; [exact Hk|]. exact (proj2 (agr_obj _ _ _ _ A c k Hk)).
Qed.
Print Assumptions C223_program.

(** If the pointers form no cycle, the objects deleted so far are exactly
    those that were made and cannot be reached any more. *)
Theorem C223_complete n ops g s trs c : graph_run (graph0 n) ops = Some g -> acyclic g -> own_run (own0 n) ops = Ok (s, trs) ->
  c < length (g_objs g) -> (In c (concat trs) <-> ~ reachable g c).
Proof.
  intros R Ac E Hc. destruct (run_agr ops _ _ _ (agr0 n) R) as (s1 & trs1 & E1 & A & N & D & _ & _).
  rewrite E in E1. injection E1 as <- <-. split.
  - intros Q Rc. destruct (reach_live s g c A Rc) as (k & Hk). assert (nth_error (o_cells s) c = Some None) by (apply D; tauto). congruence.
  - intros Rc. destruct (nth_error (o_cells s) c) as [[k|]|] eqn:Ec.
    + destruct (acyclic_live s g c A Ac); [now exists k|exact Rc].
    + apply D in Ec. destruct Ec as [Ec|Q]; [destruct c; discriminate|exact Q].
    + apply nth_error_None in Ec. rewrite (agr_len _ _ _ _ A) in Ec. lia.
Qed.
Print Assumptions C223_complete.

(** Each operation deletes, at once, the objects it makes unreachable (there
    are no cycles after it). *)
Theorem C223_at_once n ops o g g' s trs s' tr c :
  graph_run (graph0 n) ops = Some g -> graph_step g o = Some g' -> acyclic g' ->
  own_run (own0 n) ops = Ok (s, trs) -> own_step s o = Ok (s', tr) ->
  c < length (g_objs g) -> reachable g c -> (In c tr <-> ~ reachable g' c).
Proof.
  intros R St Ac' E E2 Hc Rc. destruct (run_agr ops _ _ _ (agr0 n) R) as (s1 & trs1 & E1 & A & N & D & _ & _).
  rewrite E in E1. injection E1 as <- <-. destruct (step_agr s g o g' A St) as (s2 & tr2 & E3 & A2 & N2 & D2 & T2 & W2).
  rewrite E2 in E3. injection E3 as <- <-. destruct (reach_live s g c A Rc) as (k & Hk). split.
  - intros Q Rc'. destruct (reach_live s' g' c A2 Rc') as (k' & Hk'). assert (nth_error (o_cells s') c = Some None) by (apply D2; tauto). congruence.
  - intros Rc'. destruct (nth_error (o_cells s') c) as [[k'|]|] eqn:Ec.
    + destruct (acyclic_live s' g' c A2 Ac'); [now exists k'|exact Rc'].
    + apply D2 in Ec. destruct Ec as [Ec|Q]; [congruence|exact Q].
    + apply nth_error_None in Ec. rewrite (agr_len _ _ _ _ A2) in Ec. destruct (step_good g o g' St) as (L & _). lia.
Qed.
Print Assumptions C223_at_once.

(** Whatever the cycles, an operation deletes only objects that could be
    reached before it or that it made itself. *)
Theorem C223_only_reachable n ops o g g' s trs s' tr c :
  graph_run (graph0 n) ops = Some g -> graph_step g o = Some g' ->
  own_run (own0 n) ops = Ok (s, trs) -> own_step s o = Ok (s', tr) -> In c tr -> reachable g c \/ c = length (g_objs g).
Proof.
  intros R St E E2 Q. destruct (run_agr ops _ _ _ (agr0 n) R) as (s1 & trs1 & E1 & A & N & D & _ & _).
  rewrite E in E1. injection E1 as <- <-. destruct (step_agr s g o g' A St) as (s2 & tr2 & E3 & A2 & N2 & D2 & T2 & W2).
  rewrite E2 in E3. injection E3 as <- <-. destruct (step_good g o g' St) as (L & _).
  destruct (W2 c Q) as (a & Ra & Pa). assert (Gc : good g c).
  { destruct Pa as [->|Pa]; [now left|]. exact (good_path _ _ _ _ _ St Pa (or_introl Ra)). }
  destruct Gc as [Rc|Lc]; [now left|]. right. assert (Ec : nth_error (o_cells s') c = Some None) by (apply D2; tauto).
  assert (c < length (o_cells s')) by (apply nth_error_Some; congruence). rewrite (agr_len _ _ _ _ A2) in *. lia.
Qed.
Print Assumptions C223_only_reachable.

(** A tree with a shared leaf: the root (0) owns 1 and 2, both own 3, and a
    second variable holds 2.  When the first variable lets go of the root, 1
    and the root are deleted; when the second does, 3 and 2. *)
Definition v0 := Place 0 [].
Definition C223_tree : list oop :=
  [New v0 2; New (Place 0 [0]) 1; New (Place 0 [1]) 1; New (Place 0 [0; 0]) 0; Copy (Place 0 [1; 0]) (Place 0 [0; 0]);
   Copy (Place 1 []) (Place 0 [1]); Move (Place 0 [0]) (Place 0 [1]); Reset v0; Reset (Place 1 [])].
Example C223_example : exists g s, graph_run (graph0 2) C223_tree = Some g /\
  own_run (own0 2) C223_tree = Ok (s, [[]; []; []; []; []; []; []; [1; 0]; [3; 2]]).
Proof. eexists _, _. split; vm_compute; reflexivity. Qed.
Example C223_example_acyclic : acyclic (G [Some 0] [[Some 1]; []]).
Proof.
  assert (H : forall a b, path (G [Some 0] [[Some 1]; []]) a b -> a < b).
  { induction 1 as [c d (j & E)|c d e (j & E) _ IH]; cbn [points g_objs] in E;
      destruct c as [|[|[|c]]]; cbn in E; try discriminate; destruct j as [|[|j]]; cbn in E; try discriminate; injection E as <-; lia. }
  intros c P. specialize (H c c P). lia.
Qed.

(** Removing an element from the middle of a list, by a.next = a.next.next. *)
Definition C223_list : list oop :=
  [New v0 1; New (Place 0 [0]) 1; New (Place 0 [0; 0]) 1; Copy (Place 0 [0]) (Place 0 [0; 0]); Reset v0].
Example C223_list_example : exists g s, graph_run (graph0 1) C223_list = Some g /\
  own_run (own0 1) C223_list = Ok (s, [[]; []; []; [1]; [2; 0]]).
Proof. eexists _, _. split; vm_compute; reflexivity. Qed.

(** ** C224 *)

(** p = move (q) leaves the old object of p in q, and deletes nothing. *)
Theorem C224_move_refuted : exists ops s trs,
  own_run (own0 2) (ops ++ [Move (Place 0 []) (Place 1 [])]) = Ok (s, trs) /\
  o_vars s = [Some 1; Some 0] /\ concat trs = [].
Proof. exists [New (Place 0 []) 0; New (Place 1 []) 0]. eexists _, _. split; [vm_compute; reflexivity|]. split; reflexivity. Qed.
Print Assumptions C224_move_refuted.

(** An object that exists and cannot be reached is never deleted, whatever the
    program does afterwards. *)
Theorem C224_lost_for_good n ops g s trs c ops2 g2 s2 trs2 :
  graph_run (graph0 n) ops = Some g -> own_run (own0 n) ops = Ok (s, trs) ->
  c < length (g_objs g) -> ~ reachable g c -> ~ In c (concat trs) ->
  graph_run g ops2 = Some g2 -> own_run s ops2 = Ok (s2, trs2) -> ~ In c (concat trs2).
Proof.
  intros R E Hc Rc Q R2 E2. destruct (run_agr ops _ _ _ (agr0 n) R) as (s1 & trs1 & E1 & A & _).
  rewrite E in E1. injection E1 as <- <-. destruct (run_agr ops2 _ _ _ A R2) as (s3 & trs3 & E3 & _ & _ & _ & _ & W).
  rewrite E2 in E3. injection E3 as <- <-. intros Z. destruct (W c Z) as [?|?]; [tauto|lia].
Qed.
Print Assumptions C224_lost_for_good.

(** Dropping the first element of a list with head = move (head->next) makes
    it own itself: it cannot be reached, and stays for ever. *)
Theorem C224_pop_refuted : exists ops g s trs, graph_run (graph0 1) (ops ++ [Move (Place 0 []) (Place 0 [0])]) = Some g /\
  own_run (own0 1) (ops ++ [Move (Place 0 []) (Place 0 [0])]) = Ok (s, trs) /\
  o_vars s = [Some 1] /\ ~ reachable g 0 /\
  forall ops2 g2 s2 trs2, graph_run g ops2 = Some g2 -> own_run s ops2 = Ok (s2, trs2) -> ~ In 0 (concat (trs ++ trs2)).
Proof.
  exists [New (Place 0 []) 1; New (Place 0 [0]) 1]. set (pop := _ ++ _).
  assert (R : graph_run (graph0 1) pop = Some (G [Some 1] [[Some 0]; [None]])) by (vm_compute; reflexivity).
  assert (E : own_run (own0 1) pop = Ok (Own [Some (Cell 1 [Some 0]); Some (Cell 1 [None])] [Some 1], [[]; []; []])) by (vm_compute; reflexivity).
  eexists _, _, _. split; [exact R|]. split; [exact E|]. split; [reflexivity|].
  assert (N : ~ reachable (G [Some 1] [[Some 0]; [None]]) 0).
  { assert (H : forall c, reachable (G [Some 1] [[Some 0]; [None]]) c -> c = 1).
    { induction 1 as [i c P|c d _ -> (j & P)]; cbn [points g_vars g_objs] in P.
      - destruct i as [|[|i]]; cbn in P; congruence.
      - cbn in P. destruct j as [|[|j]]; cbn in P; discriminate. }
    intros Q. specialize (H 0 Q). discriminate. }
  split; [exact N|]. intros ops2 g2 s2 trs2 R2 E2. cbn [app concat].
  apply (C224_lost_for_good 1 pop _ _ _ 0 ops2 g2 s2 trs2 R E); [cbn; lia|exact N|intros []|exact R2|exact E2].
Qed.
Print Assumptions C224_pop_refuted.

(** Two objects that own each other are never deleted. *)
Theorem C224_cycle_refuted : exists ops g s trs, graph_run (graph0 1) ops = Some g /\ own_run (own0 1) ops = Ok (s, trs) /\
  (forall c, ~ reachable g c) /\
  forall ops2 g2 s2 trs2, graph_run g ops2 = Some g2 -> own_run s ops2 = Ok (s2, trs2) -> ~ In 0 (concat (trs ++ trs2)) /\ ~ In 1 (concat (trs ++ trs2)).
Proof.
  exists [New (Place 0 []) 1; New (Place 0 [0]) 1; Copy (Place 0 [0; 0]) (Place 0 []); Reset (Place 0 [])]. set (ops := _ :: _).
  assert (R : graph_run (graph0 1) ops = Some (G [None] [[Some 1]; [Some 0]])) by (vm_compute; reflexivity).
  assert (E : own_run (own0 1) ops = Ok (Own [Some (Cell 1 [Some 1]); Some (Cell 1 [Some 0])] [None], [[]; []; []; []])) by (vm_compute; reflexivity).
  eexists _, _, _. split; [exact R|]. split; [exact E|].
  assert (N : forall c, ~ reachable (G [None] [[Some 1]; [Some 0]]) c).
  { induction 1 as [i c P|c d _ IH _]; [|exact IH]. cbn [points g_vars] in P. destruct i as [|[|i]]; cbn in P; discriminate. }
  split; [exact N|]. intros ops2 g2 s2 trs2 R2 E2. cbn [app concat].
  split; (eapply C224_lost_for_good; [exact R|exact E| |apply N|intros []|exact R2|exact E2]); cbn; lia.
Qed.
Print Assumptions C224_cycle_refuted.
