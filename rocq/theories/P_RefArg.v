(** * Properties C206 and C207: value arguments that are elements of the object worked on. *)
From Coq Require Import ZArith.
From Verif Require Import Base StoreModel VectorModel VectorSpec VectorProofs RefArgModel RefArgProofs.
Local Open Scope nat_scope.

(** ** C206: where it works *)

(** fill (a.begin(), a.end(), a[k]) *)
Theorem C206_fill {T} (a : list T) (r : arg T) (v : T) : deref a r = Ok v ->
  fill_loop a r (length a) 0 = Ok (repeat v (length a)).
Proof.
  intros H. pose proof (fill_loop_ok r v a [] []) as L. cbn [app length] in L. rewrite !app_nil_r in L. exact (L H).
Qed.
Print Assumptions C206_fill.

(** replace (a.begin(), a.end(), o, a[k]) and replace_if (a.begin(), a.end(), p, a[k]) *)
Theorem C206_replace_by_own {T} (eqb : T -> T -> bool) (a : list T) (o : T) (r : arg T) (v : T) : deref a r = Ok v ->
  replace_arg eqb a (Val o) r = Ok (map (fun x => if eqb x o then v else x) a).
Proof.
  intros H. pose proof (replace_new_ok eqb o r v a [] []) as L. cbn [app length] in L. rewrite !app_nil_r in L. exact (L H).
Qed.
Print Assumptions C206_replace_by_own.
Theorem C206_replace_if_by_own {T} (p : T -> bool) (a : list T) (r : arg T) (v : T) : deref a r = Ok v ->
  replace_if_arg p a r = Ok (map (fun x => if p x then v else x) a).
Proof.
  intros H. pose proof (replace_if_new_ok p r v a [] []) as L. cbn [app length] in L. rewrite !app_nil_r in L. exact (L H).
Qed.
Print Assumptions C206_replace_if_by_own.

(** t + t[k] and the like make a new object *)
Theorem C206_new_object {T} (d : T) (f : T -> T -> T) (a : list T) (r : arg T) (v : T) : deref a r = Ok v ->
  op_new d f a r = Ok (map (fun x => f x v) a) /\ matrix_op f a r = Ok (map (fun x => f x v) a).
Proof. intros H. split; [apply op_new_ok|apply matrix_op_ok]; auto. Qed.
Print Assumptions C206_new_object.

(** vectors, as long as nothing is reallocated and the element stays where it is *)
Theorem C206_vector {T} (e : env) (es : Z) (dflt : T) (v : vec T) l n i x :
  (0 < es)%Z -> enough_memory e -> Vinv es v l -> nth_error l i = Some x -> (es * Z.of_nat n <= vcap v)%Z ->
  (exists v', resize_own e es v n i = Ok v' /\ contents v' = Ok (seq_resize l n x)) /\
  (i < n -> exists v', assign_n_own e es dflt v n i = Ok v' /\ contents v' = Ok (repeat x n)).
Proof.
  intros H0 Hm I Hx Hc. split; [|intros Hi].
  - destruct (resize_own_ok e es H0 Hm v l n i x I Hx Hc) as (v' & E & I'). exists v'. split; [exact E|]. now apply (contents_ok es).
  - destruct (assign_n_own_ok e es dflt H0 Hm v l n i x I Hx Hi Hc) as (v' & E & I'). exists v'. split; [exact E|]. now apply (contents_ok es).
Qed.
Print Assumptions C206_vector.
Theorem C206_vector_insert {T} (e : env) (es : Z) (v : vec T) l ip :
  (0 < es)%Z -> good_env e -> enough_memory e -> (es mod 4 = 0)%Z -> Vinv es v l -> ip <= length l ->
  (forall n i x, i < ip -> nth_error l i = Some x -> (es * Z.of_nat (length l + n) <= vcap v)%Z ->
     exists v', insert_n_own e es v ip n i = Ok v' /\ contents v' = Ok (seq_insert l ip (repeat x n))) /\
  (forall i j, i <= j <= ip -> (es * Z.of_nat (length l + (j - i)) <= vcap v)%Z ->
     exists v', insert_range_own e es v ip i j = Ok v' /\ contents v' = Ok (seq_insert l ip (slice l i j))).
Proof.
  intros H0 He Hm H4 I Hi. split.
  - intros n i x L Hx Hc. destruct (insert_n_own_any e es H0 Hm He H4 v l ip n i x I Hi Hc (or_introl (conj L Hx))) as (v' & E & I').
    exists v'. split; [exact E|]. now apply (contents_ok es).
  - intros i j L Hc. destruct (insert_range_own_low e es H0 Hm He H4 v l ip i j I (proj1 L) (proj2 L) Hi Hc) as (v' & E & I').
    exists v'. split; [exact E|]. now apply (contents_ok es).
Qed.
Print Assumptions C206_vector_insert.
(** v.assign (v.begin(), v.begin()+j) *)
Theorem C206_vector_prefix {T} (e : env) (es : Z) (dflt : T) (v : vec T) l j :
  (0 < es)%Z -> enough_memory e -> Vinv es v l -> j <= length l ->
  exists v', assign_range_own e es dflt v 0 j = Ok v' /\ contents v' = Ok (firstn j l).
Proof.
  intros H0 Hm I Hj. destruct (assign_range_own_0 e es dflt H0 Hm v l j I Hj) as (v' & E & I').
  exists v'. split; [exact E|]. now apply (contents_ok es).
Qed.
Print Assumptions C206_vector_prefix.

(** ** C207: where it does not *)

(** t *= t[k]: the elements after the k-th are combined with the new t[k] ... *)
Theorem C207_compound_refuted {T} (f : T -> T -> T) (p : list T) (v : T) (q : list T) :
  op_assign f (p ++ v :: q) (Elem (length p)) = Ok (map (fun x => f x v) p ++ f v v :: map (fun x => f x (f v v)) q).
Proof. apply op_assign_elem. Qed.
Print Assumptions C207_compound_refuted.
(** ... so normalising a tuple, an array or a matrix by its first element leaves all others as they are ... *)
Theorem C207_normalise_refuted (v : Z) (q : list Z) : v <> 0%Z ->
  op_assign Z.quot (v :: q) (Elem 0) = Ok (1%Z :: q).
Proof.
  intros H. pose proof (op_assign_elem Z.quot [] v q) as E. cbn [app length map] in E. rewrite E.
  rewrite Z.quot_same by exact H. do 2 f_equal. rewrite <- (map_id q) at 2. apply map_ext. apply Z.quot_1_r.
Qed.
Print Assumptions C207_normalise_refuted.
(** ... and it is right exactly if that makes no difference (for instance if t[k] is the last element). *)
Theorem C207_compound_partial {T} (f : T -> T -> T) (p : list T) (v : T) (q : list T) :
  op_assign f (p ++ v :: q) (Elem (length p)) = Ok (map (fun x => f x v) (p ++ v :: q)) <->
  Forall (fun x => f x (f v v) = f x v) q.
Proof.
  rewrite op_assign_elem, map_app. cbn [map]. split; intros H.
  - assert (E : map (fun x => f x (f v v)) q = map (fun x => f x v) q).
    { assert (G : map (fun x => f x v) p ++ f v v :: map (fun x => f x (f v v)) q = map (fun x => f x v) p ++ f v v :: map (fun x => f x v) q) by congruence.
      apply app_inv_head in G. congruence. }
    clear H. induction q as [|x q IH]; constructor; cbn [map] in E.
    + congruence.
    + apply IH. congruence.
  - do 3 f_equal. apply map_ext_in. intros x Hx. rewrite Forall_forall in H. auto.
Qed.
Print Assumptions C207_compound_partial.

(** replace (a.begin(), a.end(), a[k], w): after position k nothing is replaced any more. *)
Theorem C207_replace_refuted {T} (eqb : T -> T -> bool) (p : list T) (v : T) (q : list T) (w : T) :
  (forall x y, eqb x y = true <-> x = y) ->
  replace_arg eqb (p ++ v :: q) (Elem (length p)) (Val w) = Ok (map (fun x => if eqb x v then w else x) p ++ w :: q).
Proof. apply replace_arg_elem. Qed.
Print Assumptions C207_replace_refuted.

(** v.resize (n, v[i]) and v.assign (n, v[i]) that need more capacity use freed memory; v.assign (n, v[i])
    that cuts off v[i] uses a destroyed object. *)
Theorem C207_resize_refuted {T} (e : env) (es : Z) (v : vec T) l n i :
  (0 < es)%Z -> enough_memory e -> Vinv es v l -> (es * Z.of_nat n <= 2 ^ 31)%Z -> (vcap v < es * Z.of_nat n)%Z ->
  resize_own e es v n i = UB.
Proof. exact (fun H0 Hm => resize_own_UB e es H0 Hm v l n i). Qed.
Print Assumptions C207_resize_refuted.
Theorem C207_assign_refuted {T} (e : env) (es : Z) (dflt : T) (v : vec T) l n i :
  (0 < es)%Z -> enough_memory e -> Vinv es v l -> i < length l -> (es * Z.of_nat n <= 2 ^ 31)%Z ->
  0 < n -> n <= i \/ (vcap v < es * Z.of_nat n)%Z -> assign_n_own e es dflt v n i = UB.
Proof. exact (fun H0 Hm => assign_n_own_UB e es dflt H0 Hm v l n i). Qed.
Print Assumptions C207_assign_refuted.
(** v.assign (v.begin()+i, v.begin()+j) copies from destroyed objects, for every range but the prefixes. *)
Theorem C207_assign_range_refuted {T} (e : env) (es : Z) (dflt : T) (v : vec T) l i j :
  (0 < es)%Z -> enough_memory e -> Vinv es v l -> 0 < i < j -> j <= length l ->
  assign_range_own e es dflt v i j = UB.
Proof. exact (fun H0 Hm => assign_range_own_UB e es dflt H0 Hm v l i j). Qed.
Print Assumptions C207_assign_range_refuted.
(** insert (v.begin()+ip, n, v[i]) behind the insertion point: raw storage, or the wrong element;
    insert (v.begin()+ip, v.begin()+i, v.begin()+j) likewise. *)
Theorem C207_insert_refuted {T} (e : env) (es : Z) (v : vec T) l ip :
  (0 < es)%Z -> good_env e -> enough_memory e -> (es mod 4 = 0)%Z -> Vinv es v l -> ip <= length l ->
  (forall n i, 0 < n -> ip <= i < ip + n -> (es * Z.of_nat (length l + n) <= vcap v)%Z -> insert_n_own e es v ip n i = UB) /\
  (forall n i y, ip + n <= i -> nth_error l (i - n) = Some y -> (es * Z.of_nat (length l + n) <= vcap v)%Z ->
     exists v', insert_n_own e es v ip n i = Ok v' /\ contents v' = Ok (seq_insert l ip (repeat y n))) /\
  (forall i j, ip <= i < ip + (j - i) -> j <= length l -> (es * Z.of_nat (length l + (j - i)) <= vcap v)%Z ->
     insert_range_own e es v ip i j = UB) /\
  (forall i j, i <= j <= length l -> ip + (j - i) <= i -> (es * Z.of_nat (length l + (j - i)) <= vcap v)%Z ->
     exists v', insert_range_own e es v ip i j = Ok v' /\
                contents v' = Ok (seq_insert l ip (slice l (i - (j - i)) i))).
Proof.
  intros H0 He Hm H4 I Hi. split; [|split; [|split]].
  - intros n i Hn Hr Hc. exact (insert_n_own_UB e es H0 Hm He H4 v l ip n i I Hi Hc Hn Hr).
  - intros n i y Hr Hy Hc. destruct (insert_n_own_any e es H0 Hm He H4 v l ip n i y I Hi Hc (or_intror (conj Hr Hy))) as (v' & E & I').
    exists v'. split; [exact E|]. now apply (contents_ok es).
  - intros i j Hr Hj Hc. exact (insert_range_own_mid e es H0 Hm He H4 v l ip i j I Hr Hj Hc).
  - intros i j Hij Hp Hc. destruct (insert_range_own_high e es H0 Hm He H4 v l ip i j I (proj1 Hij) Hp (proj2 Hij) Hc) as (v' & E & I').
    exists v'. split; [exact E|]. now apply (contents_ok es).
Qed.
Print Assumptions C207_insert_refuted.

(** ... and without room: freed memory. *)
Theorem C207_insert_moved_refuted {T} (e : env) (es : Z) (v : vec T) l ip :
  (0 < es)%Z -> good_env e -> enough_memory e -> (es mod 4 = 0)%Z -> Vinv es v l -> ip <= length l ->
  (forall n i, (es * Z.of_nat (length l + n) <= 2 ^ 31)%Z -> (vcap v < es * Z.of_nat (length l + n))%Z -> insert_n_own e es v ip n i = UB) /\
  (forall i j, i <= j -> (es * Z.of_nat (length l + (j - i)) <= 2 ^ 31)%Z -> (vcap v < es * Z.of_nat (length l + (j - i)))%Z ->
     insert_range_own e es v ip i j = UB).
Proof. intros H0 He Hm H4 I Hi. exact (insert_own_moved_UB e es H0 Hm He H4 v l ip I Hi). Qed.
Print Assumptions C207_insert_moved_refuted.

(** Concrete cases: [2;4;6] /= its own first element; replace of the 5s; a vector with room and one without. *)
Example C206_cases :
  fill_loop [1; 2; 3] (Elem 1) 3 0 = Ok [2; 2; 2] /\
  replace_arg Nat.eqb [1; 2; 1; 3] (Val 1) (Elem 3) = Ok [3; 2; 3; 3] /\
  op_new 0%Z Z.quot [2; 4; 6]%Z (Elem 0) = Ok [1; 2; 3]%Z.
Proof. vm_compute. auto. Qed.
Example C207_cases :
  op_assign Z.quot [2; 4; 6]%Z (Elem 0) = Ok [1; 4; 6]%Z /\
  op_assign Z.mul [3; 2; 5]%Z (Elem 1) = Ok [6; 4; 20]%Z /\
  replace_arg Nat.eqb [7; 5; 5; 5] (Elem 1) (Val 9) = Ok [7; 9; 5; 5].
Proof. vm_compute. auto. Qed.
Definition env1 : env := mkenv (fun _ => 4096%Z) (fun _ => true) (2 ^ 40)%Z.
Example C206_C207_reachable : exists v, vrun env1 8 0 vec_nil [OpAssign [1; 2; 3]; OpReserve 8 true] = Ok v /\
  contents v = Ok [1; 2; 3] /\ vcap v = 64%Z.
Proof. eexists. split; [vm_compute; reflexivity|]. split; vm_compute; reflexivity. Qed.
Example C206_C207_vector : exists v, vrun env1 8 0 vec_nil [OpAssign [1; 2; 3]; OpReserve 8 true] = Ok v /\
  (exists v', resize_own env1 8 v 5 1 = Ok v' /\ contents v' = Ok [1; 2; 3; 2; 2]) /\
  (exists v', assign_n_own env1 8 0 v 5 2 = Ok v' /\ contents v' = Ok [3; 3; 3; 3; 3]) /\
  resize_own env1 8 v 9 1 = UB /\ assign_n_own env1 8 0 v 2 2 = UB /\ assign_range_own env1 8 0 v 1 3 = UB.
Proof.
  eexists. split; [vm_compute; reflexivity|].
  split; [eexists; split; vm_compute; reflexivity|]. split; [eexists; split; vm_compute; reflexivity|].
  split; [vm_compute; reflexivity|]. split; vm_compute; reflexivity.
Qed.
