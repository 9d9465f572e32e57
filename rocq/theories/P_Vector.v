(** * Properties C54 and C58: vectors. *)
From Verif Require Import Base UtilModel StoreModel VectorModel VectorSpec VectorProofs VectorFacts.
From Coq Require Import ZArith.
Local Open Scope nat_scope.

(** C54 for every element type whose size is a multiple of 4 bytes.  Any
    history of operations with valid positions and at most 2^31 bytes, from
    an empty vector: no undefined behaviour, the contents read back through
    [at] are the sequence's, the capacity covers the size.
    Missing: other element sizes (refuted below), more than 2^31 bytes (C35). *)
Theorem C54_vector_partial {T} (e : env) (es : Z) (dflt : T) (ops : list (vop T)) :
  (0 < es)%Z -> (es mod 4 = 0)%Z -> good_env e -> enough_memory e ->
  ops_pre es dflt [] ops ->
  exists v, vrun e es dflt vec_nil ops = Ok v /\ contents v = Ok (seq_run dflt [] ops) /\
    vsize v = length (seq_run dflt [] ops) /\ (es * Z.of_nat (vsize v) <= vcap v)%Z.
Proof.
  exact (fun H0 H4 He Hm Hp => vrun_contents e es dflt H0 He Hm ops Hp (ops_moves_4 es dflt H0 ops [] H4 Hp)).
Qed.
Print Assumptions C54_vector_partial.

(** For every element size, as long as the byte moves of insert and erase are
    not among the ones the x86 routines get wrong. *)
Theorem C54_vector_any_size_partial {T} (e : env) (es : Z) (dflt : T) (ops : list (vop T)) :
  (0 < es)%Z -> good_env e -> enough_memory e ->
  ops_pre es dflt [] ops -> ops_moves_ok es dflt [] ops = true ->
  exists v, vrun e es dflt vec_nil ops = Ok v /\ contents v = Ok (seq_run dflt [] ops) /\
    vsize v = length (seq_run dflt [] ops) /\ (es * Z.of_nat (vsize v) <= vcap v)%Z.
Proof. exact (fun H0 He Hm => vrun_contents e es dflt H0 He Hm ops). Qed.
Print Assumptions C54_vector_any_size_partial.

(** Histories without insert and erase need no restriction on the size. *)
Theorem C54_vector_no_moves {T} (e : env) (es : Z) (dflt : T) (ops : list (vop T)) :
  (0 < es)%Z -> good_env e -> enough_memory e -> ops_pre es dflt [] ops ->
  Forall (fun o => match o with
                   | OpInsert _ _ | OpInsertN _ _ _ | OpInsertRange _ _ | OpErase _ _ => False
                   | _ => True end) ops ->
  exists v, vrun e es dflt vec_nil ops = Ok v /\ contents v = Ok (seq_run dflt [] ops) /\
    vsize v = length (seq_run dflt [] ops) /\ (es * Z.of_nat (vsize v) <= vcap v)%Z.
Proof. exact (fun H0 He Hm Hp Hf => vrun_contents e es dflt H0 He Hm ops Hp (no_moves es dflt ops [] Hf)). Qed.
Print Assumptions C54_vector_no_moves.

(** vector<char> v = {x,y,z}; v.insert (v.begin()+1, w) has undefined
    behaviour for all values and at every address malloc can return. *)
Theorem C54_vector_char_refuted (e : env) : good_env e -> enough_memory e ->
  (16 <= malloc_at e 4)%Z -> (stack_at e < 2 ^ 62)%Z ->
  forall (x y z w : nat), vrun e 1 0 vec_nil [OpAssign [x; y; z]; OpInsert 1 w] = UB /\
    ops_pre 1 0 [] [OpAssign [x; y; z]; OpInsert 1 w].
Proof. exact (fun He Hm H1 H2 x y z w => conj (insert_char_crash e He Hm H1 H2 x y z w) (char_pre x y z w)). Qed.
Print Assumptions C54_vector_char_refuted.

(** vector<char> {0..13}, insert four values at 5: silently the wrong contents. *)
Theorem C54_vector_char_wrong_refuted :
  exists ops v l, ops_pre 1 0 [] ops /\ vrun env0 1 0 vec_nil ops = Ok v /\ contents v = Ok l /\
    l <> seq_run 0 [] ops.
Proof. exact insert_char_wrong. Qed.
Print Assumptions C54_vector_char_wrong_refuted.

(** C58: push_back (v[i]).  Right when the capacity suffices... *)
Theorem C58_push_back_own_partial {T} (e : env) (es : Z) (v : vec T) l i x :
  (0 < es)%Z -> good_env e -> enough_memory e -> Vinv es v l -> nth_error l i = Some x ->
  (es * Z.of_nat (length l + 1) <= vcap v)%Z ->
  exists v', push_back_own e es v i = Ok v' /\ contents v' = Ok (l ++ [x]).
Proof.
  exact (fun H0 He Hm I Hx Hc => match push_back_own_ok e es H0 Hm v l i x I Hx Hc with
    ex_intro _ v' (conj E I') => ex_intro _ v' (conj E (contents_ok es H0 v' _ I')) end).
Qed.
Print Assumptions C58_push_back_own_partial.

(** ... and a dangling reference whenever it does not. *)
Theorem C58_push_back_own_refuted {T} (e : env) (es : Z) (v : vec T) l i :
  (0 < es)%Z -> enough_memory e -> Vinv es v l ->
  (es * Z.of_nat (length l + 1) <= 2 ^ 31)%Z -> (vcap v < es * Z.of_nat (length l + 1))%Z ->
  push_back_own e es v i = UB.
Proof. exact (fun H0 Hm => push_back_own_UB e es H0 Hm v l i). Qed.
Print Assumptions C58_push_back_own_refuted.

(** insert (v.begin()+ip, v[i]) with [ip < i] inserts v[i-1] instead, and with
    [ip = i] reads raw storage, even when nothing is reallocated. *)
Theorem C58_insert_own_refuted {T} e es (v : vec T) l ip i x :
  (0 < es)%Z -> good_env e -> enough_memory e -> Vinv es v l ->
  ip <= i -> nth_error l i = Some x -> (es * Z.of_nat (length l + 1) <= vcap v)%Z -> (es mod 4 = 0)%Z ->
  exists y, (ip < i -> nth_error l (i - 1) = Some y) /\
   if i =? ip then insert_own e es v ip i = UB
   else exists v', insert_own e es v ip i = Ok v' /\ contents v' = Ok (seq_insert l ip [y]).
Proof. exact (insert_own_shift e es v l ip i x). Qed.
Print Assumptions C58_insert_own_refuted.

(** Non-vacuity: an environment, a history with reallocations and moves, and a
    reachable vector for the C58 theorems. *)
Definition ops1 : list (vop nat) :=
  [OpPushBack 5; OpAssign [1; 2; 3; 4; 5; 6; 7]; OpInsert 2 9; OpInsertRange 1 [11; 12; 13];
   OpErase 3 4; OpPopBack; OpResizeWith 9 8; OpReserve 100 true; OpShrink; OpInsertN 0 2 77; OpErase 4 1].
Example C54_env : good_env env0 /\ enough_memory env0 /\ (16 <= malloc_at env0 4)%Z /\ (stack_at env0 < 2 ^ 62)%Z.
Proof. split; [exact env0_good|]. split; [exact env0_mem|]. unfold env0. cbn [malloc_at stack_at]. lia. Qed.
Example C54_history : ops_pre 4 0 [] ops1 /\ seq_run 0 [] ops1 = [77; 77; 1; 11; 4; 5; 6; 8; 8; 8] /\
  (v <- vrun env0 4 0 vec_nil ops1 ;; contents v) = Ok [77; 77; 1; 11; 4; 5; 6; 8; 8; 8].
Proof. split; [repeat split; try (cbv; discriminate); cbn; lia|split; vm_compute; reflexivity]. Qed.
Example C58_reachable : exists v, vrun env0 4 0 vec_nil [OpAssign [1; 2; 3]] = Ok v /\ Vinv 4 v [1; 2; 3] /\
  (4 * Z.of_nat (length [1; 2; 3] + 1) <= vcap v)%Z.
Proof.
  eexists; split; [reflexivity|]. split; [|cbv; discriminate].
  split; [exists 1; reflexivity|]. split; [reflexivity|]. split; [reflexivity|cbn; lia].
Qed.
