(** * Properties C218 and C219: merging and splicing a list with itself. *)
From Coq Require Import ZArith.
From Verif Require Import Base StoreModel VectorModel VectorSpec VectorProofs RefArgModel ListModel ListProofs ListOwnModel ListOwnProofs.
Local Open Scope nat_scope.

(** C218.  l.splice (l.begin()+ip, l, l.begin()+i, l.begin()+j) for i <= j <= ip: the range goes to where
    ip was, without loss, as long as the list has room for the copy it makes on the way.
    The sequence before is [a ++ r ++ b ++ c] with the range r at i and ip before c. *)
Theorem C218_move_later {T} (e : env) (es : Z) (v : vec T) (a r b c : list T) :
  (0 < es)%Z -> enough_memory e -> good_env e -> (es mod 4 = 0)%Z -> Vinv es v (a ++ r ++ b ++ c) ->
  (es * Z.of_nat (length a + length r + length b + length c + length r) <= vcap v)%Z ->
  exists v', l_splice_own e es v (length a + length r + length b) (length a) (length a + length r) = Ok v' /\
             contents v' = Ok (a ++ b ++ r ++ c).
Proof.
  intros H0 Hm He H4 I Hc.
  destruct (splice_own_low e es H0 Hm He H4 v _ (length a + length r + length b) (length a) (length a + length r) I) as (v' & E & I').
  - lia.
  - lia.
  - rewrite !app_length. lia.
  - rewrite !app_length. eapply Z.le_trans; [|exact Hc]. nia.
  - exists v'. split; [exact E|]. rewrite (contents_ok es H0 v' _ I'). f_equal.
    rewrite erase_insert_low by (rewrite ?app_length; lia).
    assert (L1 : firstn (length a) (a ++ r ++ b ++ c) = a) by (rewrite firstn_app, firstn_all, Nat.sub_diag; apply app_nil_r).
    assert (L2 : slice (a ++ r ++ b ++ c) (length a) (length a + length r) = r).
    { unfold slice. rewrite skipn_app, skipn_all, Nat.sub_diag. cbn [skipn app].
      replace (length a + length r - length a) with (length r) by lia.
      rewrite firstn_app, firstn_all, Nat.sub_diag. apply app_nil_r. }
    assert (L3 : slice (a ++ r ++ b ++ c) (length a + length r) (length a + length r + length b) = b).
    { unfold slice. rewrite app_assoc, <- app_length, skipn_app, skipn_all, Nat.sub_diag. cbn [skipn app].
      replace (length (a ++ r) + length b - length (a ++ r)) with (length b) by lia.
      rewrite firstn_app, firstn_all, Nat.sub_diag. apply app_nil_r. }
    assert (L4 : skipn (length a + length r + length b) (a ++ r ++ b ++ c) = c).
    { replace (a ++ r ++ b ++ c) with ((a ++ r ++ b) ++ c) by (rewrite <- !app_assoc; reflexivity).
      replace (length a + length r + length b) with (length (a ++ r ++ b)) by (rewrite !app_length; lia).
      rewrite skipn_app, skipn_all, Nat.sub_diag. reflexivity. }
    rewrite L1, L2, L3, L4. reflexivity.
Qed.
Print Assumptions C218_move_later.

(** ** C219: the rest *)

(** l.merge (l) ought to give every element twice; it gives the list with as many default elements in front. *)
Theorem C219_merge_refuted {T} (e : env) (es : Z) (dflt : T) (v : vec T) l :
  (0 < es)%Z -> enough_memory e -> good_env e -> Vinv es v l -> (es * Z.of_nat (length l + length l) <= 2 ^ 31)%Z ->
  exists v', l_merge_own e es dflt v = Ok v' /\ contents v' = Ok (repeat dflt (length l) ++ l).
Proof.
  intros H0 Hm He I B. destruct (merge_own_ok e es dflt H0 Hm He v l I B) as (v' & E & I').
  exists v'. split; [exact E|]. now apply (contents_ok es).
Qed.
Print Assumptions C219_merge_refuted.

(** Moving a range [r] to an earlier place, as far before it as it is long or more, ought to give
    [a ++ r ++ m ++ s ++ c]: what is moved is the stretch [s] of that length in front of [r]. *)
Theorem C219_move_earlier_refuted {T} (e : env) (es : Z) (v : vec T) (a m s r c : list T) :
  (0 < es)%Z -> enough_memory e -> good_env e -> (es mod 4 = 0)%Z -> Vinv es v (a ++ m ++ s ++ r ++ c) ->
  length s = length r ->
  (es * Z.of_nat (length (a ++ m ++ s ++ r ++ c) + length r) <= vcap v)%Z ->
  exists v', l_splice_own e es v (length a) (length (a ++ m ++ s)) (length (a ++ m ++ s ++ r)) = Ok v' /\
             contents v' = Ok (a ++ s ++ m ++ r ++ c).
Proof.
  intros H0 Hm He H4 I Hl Hc.
  set (l := a ++ m ++ s ++ r ++ c) in *.
  assert (D : length (a ++ m ++ s ++ r) - length (a ++ m ++ s) = length r) by (rewrite !app_length; lia).
  destruct (splice_own_high e es H0 Hm He H4 v l (length a) (length (a ++ m ++ s)) (length (a ++ m ++ s ++ r)) I) as (v' & E & I').
  - rewrite !app_length. lia.
  - rewrite D, !app_length. lia.
  - unfold l. rewrite !app_length. lia.
  - rewrite D. exact Hc.
  - exists v'. split; [exact E|]. rewrite (contents_ok es H0 v' _ I'). f_equal.
    rewrite erase_insert_high; [|rewrite !app_length; lia|rewrite D, !app_length; lia|unfold l; rewrite !app_length; lia].
    rewrite D.
    assert (K : length (a ++ m ++ s) - length r = length (a ++ m)) by (rewrite !app_length; lia).
    rewrite K.
    assert (L1 : firstn (length a) l = a) by (unfold l; rewrite firstn_app, firstn_all, Nat.sub_diag; apply app_nil_r).
    assert (L2 : slice l (length (a ++ m)) (length (a ++ m ++ s)) = s).
    { unfold slice, l. rewrite (app_assoc a m (s ++ r ++ c)). rewrite skipn_app, skipn_all, Nat.sub_diag. cbn [skipn app].
      replace (length (a ++ m ++ s) - length (a ++ m)) with (length s) by (rewrite !app_length; lia).
      rewrite firstn_app, firstn_all, Nat.sub_diag. apply app_nil_r. }
    assert (L3 : slice l (length a) (length (a ++ m)) = m).
    { unfold slice, l. rewrite skipn_app, skipn_all, Nat.sub_diag. cbn [skipn app].
      replace (length (a ++ m) - length a) with (length m) by (rewrite !app_length; lia).
      rewrite firstn_app, firstn_all, Nat.sub_diag. apply app_nil_r. }
    assert (L4 : skipn (length (a ++ m ++ s)) l = r ++ c).
    { unfold l. replace (a ++ m ++ s ++ r ++ c) with ((a ++ m ++ s) ++ r ++ c) by (rewrite <- !app_assoc; reflexivity).
      rewrite skipn_app, skipn_all, Nat.sub_diag. reflexivity. }
    rewrite L1, L2, L3, L4. reflexivity.
Qed.
Print Assumptions C219_move_earlier_refuted.

(** Nearer than that, or if there is no room for the copy, it is undefined. *)
Theorem C219_splice_refuted {T} (e : env) (es : Z) (v : vec T) l ip i j :
  (0 < es)%Z -> enough_memory e -> good_env e -> (es mod 4 = 0)%Z -> Vinv es v l ->
  (ip <= i < ip + (j - i) -> j <= length l -> (es * Z.of_nat (length l + (j - i)) <= vcap v)%Z ->
     l_splice_own e es v ip i j = UB) /\
  (i <= j <= length l -> ip <= length l -> (es * Z.of_nat (length l + (j - i)) <= 2 ^ 31)%Z ->
     (vcap v < es * Z.of_nat (length l + (j - i)))%Z -> l_splice_own e es v ip i j = UB).
Proof.
  intros H0 Hm He H4 I. split.
  - exact (splice_own_mid e es H0 Hm He H4 v l ip i j I).
  - exact (splice_own_moved e es H0 Hm He H4 v l ip i j I).
Qed.
Print Assumptions C219_splice_refuted.

(** Concrete: a list of five with room for eight, and one without. *)
Definition env1 : env := mkenv (fun _ => 4096%Z) (fun _ => true) (2 ^ 40)%Z.
Example C218_C219_cases : exists v, vrun env1 8 0 vec_nil [OpReserve 8 true; OpAssign [1; 2; 3; 4; 5]] = Ok v /\
  Vinv 8 v [1; 2; 3; 4; 5] /\
  (exists v', l_splice_own env1 8 v 4 0 2 = Ok v' /\ contents v' = Ok [3; 4; 1; 2; 5]) /\
  (exists v', l_splice_own env1 8 v 0 3 4 = Ok v' /\ contents v' = Ok [3; 1; 2; 4; 5]) /\
  (exists v', l_merge_own env1 8 0 v = Ok v' /\ contents v' = Ok [0; 0; 0; 0; 0; 1; 2; 3; 4; 5]) /\
  l_splice_own env1 8 v 2 3 5 = UB /\ l_splice_own env1 8 v 5 0 4 = UB.
Proof.
  eexists. split; [vm_compute; reflexivity|].
  split; [split; [exists 3; reflexivity|]; split; [reflexivity|]; split; [reflexivity|]; vm_compute; split; discriminate|].
  split; [eexists; split; vm_compute; reflexivity|]. split; [eexists; split; vm_compute; reflexivity|].
  split; [eexists; split; vm_compute; reflexivity|]. split; vm_compute; reflexivity.
Qed.
