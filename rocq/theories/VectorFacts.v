(** * VectorFacts: witnesses and consequences for vectors. *)
From Verif Require Import Base UtilModel UtilProofs ByteModel ByteSpec ByteProofs ByteFacts
  StoreModel VectorModel VectorSpec StoreProofs VectorProofs.
From Coq Require Import ZArith ZifyBool ZifyNat.
Local Open Scope nat_scope.

(** A concrete environment: blocks at 4096, the stack at 2^40. *)
Definition env0 : env := mkenv (fun _ => 4096%Z) (fun _ => true) (2 ^ 40)%Z.
Lemma env0_good : good_env env0.
Proof. intros n Hn. unfold env0. cbn [malloc_at stack_at]. split; [reflexivity|]. lia. Qed.
Lemma env0_mem : enough_memory env0.
Proof. intros n _. reflexivity. Qed.

(** Rotating bytes 1..3 and 3..4 of a 4-byte block crashes, wherever it is. *)
Lemma rotate_bytes_crash {A} e base (cells : list A) :
  length cells = 4 -> (base mod 16 = 0)%Z -> (16 <= base)%Z -> (base + 4 <= stack_at e)%Z ->
  (stack_at e < 2 ^ 62)%Z -> rotate_cells e 1 base cells 1 3 4 = UB.
Proof.
  intros L H16 Hb Hs Hm. unfold rotate_cells. rewrite L.
  change (Z.of_nat (3 - 1)) with 2%Z. change (Z.of_nat (4 - 3)) with 1%Z. change (1 * Z.min 2 1)%Z with 1%Z.
  change (Z.of_nat 4) with 4%Z. change (1 * Z.of_nat 1)%Z with 1%Z. change (1 * Z.of_nat 3)%Z with 3%Z.
  change (1 * 4)%Z with 4%Z.
  set (m := frag_mem 1 base 4 (stack_at e) 1).
  assert (Hmem : forall x, (base <= x < base + 4)%Z \/ x = stack_at e -> m x <> None).
  { intros x Hx. unfold m, frag_mem. change (1 * 4)%Z with 4%Z.
    destruct ((base <=? x) && (x <? base + 4))%Z eqn:E; [discriminate|].
    replace ((stack_at e <=? x) && (x <? stack_at e + 1))%Z with true by lia. discriminate. }
  unfold rotate_fast, rotate_fast_with.
  replace (base + 3 - (base + 1))%Z with 2%Z by lia. replace (base + 4 - (base + 3))%Z with 1%Z by lia.
  change (umin 2 1) with 1%Z. change (1 =? 0)%Z with false. cbn iota. change (1 <? 2)%Z with true. cbn iota.
  destruct (copy_n_fast_ok m (base + 3) 1 (stack_at e)) as (m1 & E1 & C1 & D1);
    [unfold two64; lia|lia|intros x Hx; apply Hmem; lia|intros x Hx; apply Hmem; lia|right; left; lia|].
  rewrite E1. cbn [bind].
  replace (base + 3)%Z with (base + 1 + 2)%Z by lia. replace (base + 4)%Z with (base + 1 + 3)%Z by lia.
  rewrite (backward_wraps m1 (base + 1)); [reflexivity|lia| |].
  - rewrite Z.add_mod by lia. assert (base mod 4 = 0)%Z by (Z.div_mod_to_equations; lia).
    rewrite H. reflexivity.
  - exists (base - 1)%Z. split; [lia|]. split; [lia|]. apply D1. unfold m, frag_mem.
    change (1 * 4)%Z with 4%Z.
    replace ((base <=? base - 1) && (base - 1 <? base + 4))%Z with false by lia.
    replace ((stack_at e <=? base - 1) && (base - 1 <? stack_at e + 1))%Z with false by lia. reflexivity.
Qed.

(** vector<char> v = {a,c,d}; v.insert (v.begin()+1, b) crashes. *)
Lemma insert_char_crash e : good_env e -> enough_memory e ->
  (16 <= malloc_at e 4)%Z -> (stack_at e < 2 ^ 62)%Z ->
  forall (x y z w : nat), vrun e 1 0 vec_nil [OpAssign [x; y; z]; OpInsert 1 w] = UB.
Proof.
  intros He Hm H16 Hs x y z w.
  destruct (He 4%Z ltac:(lia)) as (A1 & A2 & A3 & A4).
  cbn [vrun vstep].
  assert (E : assign e 1 0 vec_nil [x; y; z] = Ok (mkvec [Some x; Some y; Some z; None] 3 4%Z)).
  { unfold assign, resize, resize_with, vreserve_bytes, bytes. cbn [length vcap vec_nil].
    change (1 * Z.of_nat 3 <=? 0)%Z with false. cbn iota.
    change (next_pow2 (1 * Z.of_nat 3)) with 4%Z. rewrite Hm by lia. reflexivity. }
  rewrite E. cbn [bind]. unfold insert1, insert_list, insert_hole, vreserve, vreserve_bytes, bytes. cbn [vsize vcap vcells length].
  change (3 <? 1) with false. change (1 * Z.of_nat (3 + 1) <=? 4)%Z with true. cbn iota. cbn [bind].
  cbn [vsize vcap vcells]. change (1 * Z.of_nat (3 + 1) <=? 4)%Z with true. cbn iota. cbn [bind vsize vcap vcells].
  change (3 + 1) with 4. rewrite rotate_bytes_crash; auto.
Qed.

Lemma insert_own_shift {T} e es (v : vec T) l ip i x :
  (0 < es)%Z -> good_env e -> enough_memory e -> Vinv es v l ->
  ip <= i -> nth_error l i = Some x -> (es * Z.of_nat (length l + 1) <= vcap v)%Z -> (es mod 4 = 0)%Z ->
  exists y, (ip < i -> nth_error l (i - 1) = Some y) /\
   if i =? ip then insert_own e es v ip i = UB
   else exists v', insert_own e es v ip i = Ok v' /\ contents v' = Ok (seq_insert l ip [y]).
Proof.
  intros Hes He Hm H Hi Hx Hc H4.
  assert (Hl : i < length l) by (apply nth_error_Some; congruence).
  assert (Hb : (es * Z.of_nat (length l + 1) <= 2 ^ 31)%Z) by (pose proof H as (_ & _ & _ & ?); lia).
  destruct (rot_good_4 es (Z.of_nat ip) (Z.of_nat (length l)) (Z.of_nat (length l + 1)) H4) as [G|G]; [|nia].
  destruct (insert_hole_ok e es Hes He Hm v l ip 1 H ltac:(lia) Hb G) as (v' & mv & r & E & C & S & L & B & W).
  specialize (W Hc). subst mv.
  assert (Lf : length (map (@Some T) (firstn ip l)) = ip) by (rewrite map_length, firstn_length; lia).
  destruct (Nat.eqb_spec i ip) as [->|N].
  - exists x. split; [lia|]. unfold insert_own. rewrite E. cbn [bind]. rewrite C. unfold rd at 1.
    rewrite nth_error_app2 by lia. rewrite Lf, Nat.sub_diag. reflexivity.
  - destruct (nth_error l (i - 1)) as [y|] eqn:Ey; [|apply nth_error_None in Ey; lia]. exists y.
    split; [auto|]. unfold insert_own. rewrite E. cbn [bind]. rewrite C. unfold rd at 1.
    rewrite nth_error_app2 by lia. rewrite Lf. rewrite nth_error_app2 by (cbn; lia). cbn [length repeat].
    assert (Hk : nth_error (map (@Some T) (skipn ip l) ++ repeat None r) (i - ip - 1) = Some (Some y)).
    { rewrite nth_error_app1 by (rewrite map_length, skipn_length; lia). apply map_nth_error.
      rewrite <- Ey. rewrite <- (firstn_skipn ip l) at 2. rewrite nth_error_app2 by (rewrite firstn_length; lia).
      rewrite firstn_length. f_equal. lia. }
    rewrite Hk. cbn [bind].
    pose proof (construct_ok [y] (map Some (firstn ip l)) (map Some (skipn ip l) ++ repeat None r)) as D.
    cbn [length] in D. rewrite Lf in D. cbn [repeat app] in D |- *. rewrite D. cbn [bind].
    eexists; split; [reflexivity|]. apply (contents_ok es); [exact Hes|]. rewrite S.
    replace (map Some (firstn ip l) ++ map Some [y] ++ map Some (skipn ip l) ++ repeat None r)
      with (map Some (seq_insert l ip [y]) ++ repeat None r) by (unfold seq_insert; rewrite !map_app, <- !app_assoc; reflexivity).
    assert (Hlen : length (seq_insert l ip [y]) = length l + 1).
    { unfold seq_insert. rewrite !app_length, firstn_length, skipn_length. cbn. lia. }
    apply Vinv_mk2; [lia| |exact B]. lia.
Qed.

Lemma char_pre (x y z w : nat) : ops_pre 1 0 [] [OpAssign [x; y; z]; OpInsert 1 w].
Proof. repeat split; cbn; lia. Qed.

Lemma insert_char_wrong :
  exists ops v l, ops_pre 1 0 [] ops /\ vrun env0 1 0 vec_nil ops = Ok v /\ contents v = Ok l /\
    l <> seq_run 0 [] ops.
Proof.
  exists [OpAssign [0;1;2;3;4;5;6;7;8;9;10;11;12;13]; OpInsertRange 5 [100;101;102;103]].
  eexists _, _. split; [repeat split; cbn; lia|]. split; [vm_compute; reflexivity|].
  split; [vm_compute; reflexivity|]. vm_compute. discriminate.
Qed.

Lemma no_moves {T} es (dflt : T) ops : forall l,
  Forall (fun o => match o with
                   | OpInsert _ _ | OpInsertN _ _ _ | OpInsertRange _ _ | OpErase _ _ => False
                   | _ => True end) ops -> ops_moves_ok es dflt l ops = true.
Proof.
  induction ops as [|o t IH]; intros l H; [reflexivity|]. inversion H as [|? ? H1 H2]; subst.
  cbn [ops_moves_ok]. rewrite IH by exact H2. destruct o; cbn in *; tauto.
Qed.
