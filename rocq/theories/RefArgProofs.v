(** * RefArgProofs: lemmas about RefArgModel. *)
From Coq Require Import ZArith.
From Verif Require Import Base UtilModel StoreModel StoreProofs VectorModel VectorSpec VectorProofs RefArgModel.
Local Open Scope nat_scope.

Section Algo.
  Context {T : Type}.
  Implicit Types (a pre post l : list T) (r : arg T).

  (** the argument has the value [v] as long as only the part [l] is written *)
  Definition steady r v (pre l post : list T) : Prop :=
    match r with
    | Val w => w = v
    | Elem k => k < length pre /\ nth_error pre k = Some v \/
                length pre + length l <= k /\ nth_error post (k - (length pre + length l)) = Some v
    end.
  Lemma steady_deref r v pre x l post : steady r v pre (x :: l) post -> forall y,
    deref (pre ++ y :: l ++ post) r = Ok v.
  Proof.
    destruct r as [w|k]; cbn [steady deref]; intros H y; [now subst|]. unfold rd.
    destruct H as [[H E]|[H E]].
    - rewrite nth_error_app1 by lia. now rewrite E.
    - rewrite nth_error_app2 by lia. cbn [length] in *.
      destruct (k - length pre) as [|j] eqn:J; [lia|]. cbn [nth_error].
      rewrite nth_error_app2 by lia. replace (j - length l) with (k - (length pre + S (length l))) by lia. now rewrite E.
  Qed.
  Lemma steady_step r v pre x l post y : steady r v pre (x :: l) post -> steady r v (pre ++ [y]) l post.
  Proof.
    destruct r as [w|k]; cbn [steady]; [auto|]. rewrite app_length. cbn [length]. intros [[H E]|[H E]]; [left|right].
    - split; [lia|]. now rewrite nth_error_app1.
    - split; [lia|]. replace (k - (length pre + 1 + length l)) with (k - (length pre + S (length l))) by lia. exact E.
  Qed.

  Lemma op_loop_steady f r v l : forall pre post, steady r v pre l post ->
    op_loop f (pre ++ l ++ post) r (length l) (length pre) = Ok (pre ++ map (fun x => f x v) l ++ post).
  Proof.
    induction l as [|x l IH]; intros pre post H; [reflexivity|]. cbn [op_loop length app map].
    rewrite rd_app. cbn [bind]. rewrite (steady_deref _ _ _ _ _ _ H). cbn [bind]. rewrite wr_app. cbn [bind].
    specialize (IH (pre ++ [f x v]) post (steady_step _ _ _ _ _ _ _ H)).
    rewrite app_length, <- !app_assoc in IH. exact IH.
  Qed.
  Lemma op_loop_app f r n : forall a m i, op_loop f a r (n + m) i = bind (op_loop f a r n i) (fun a => op_loop f a r m (i + n)).
  Proof.
    induction n as [|n IH]; intros a m i; cbn [op_loop Nat.add bind]; [now rewrite Nat.add_0_r|].
    destruct (rd a i) as [x| | |]; cbn [bind]; try reflexivity.
    destruct (deref a r) as [v| | |]; cbn [bind]; try reflexivity.
    destruct (wr a i (f x v)) as [b| | |]; cbn [bind]; try reflexivity.
    rewrite IH. f_equal. replace (i + 1 + n) with (i + S n) by lia. reflexivity.
  Qed.

  Lemma op_assign_val f a v : op_assign f a (Val v) = Ok (map (fun x => f x v) a).
  Proof.
    unfold op_assign. pose proof (op_loop_steady f (Val v) v a [] [] eq_refl) as H.
    cbn [app length] in H. rewrite !app_nil_r in H. exact H.
  Qed.
  Lemma op_assign_elem f (p : list T) v q :
    op_assign f (p ++ v :: q) (Elem (length p)) = Ok (map (fun x => f x v) p ++ f v v :: map (fun x => f x (f v v)) q).
  Proof.
    unfold op_assign. rewrite app_length. cbn [length]. rewrite op_loop_app.
    pose proof (op_loop_steady f (Elem (length p)) v p [] (v :: q)) as H1. cbn [app length] in H1.
    rewrite H1; [|right; cbn [length]; split; [lia|]; now rewrite Nat.sub_diag]. cbn [bind Nat.add].
    replace (length p) with (length (map (fun x => f x v) p)) by apply map_length.
    set (p' := map (fun x => f x v) p). cbn [op_loop deref]. rewrite rd_app. cbn [bind]. rewrite wr_app. cbn [bind].
    pose proof (op_loop_steady f (Elem (length p')) (f v v) q (p' ++ [f v v]) []) as H2.
    rewrite app_nil_r, app_length, <- app_assoc in H2. cbn [app length] in H2. rewrite H2.
    - rewrite app_nil_r, <- app_assoc. reflexivity.
    - left. rewrite app_length. cbn. split; [lia|]. rewrite nth_error_app2, Nat.sub_diag by lia. reflexivity.
  Qed.

  Lemma op_new_loop_ok f a r v : (forall x, In x a -> deref a r = Ok v) -> forall l p q res rest,
    a = p ++ l ++ q -> length res = length p -> length rest = length l ->
    op_new_loop f a r (res ++ rest) (length l) (length p) = Ok (res ++ map (fun x => f x v) l).
  Proof.
    intros D. induction l as [|x l IH]; intros p q res rest E L1 L2.
    - destruct rest; [|discriminate]. reflexivity.
    - destruct rest as [|y rest]; [discriminate|]. cbn [op_new_loop length map]. rewrite E at 1. cbn [app]. rewrite rd_app. cbn [bind].
      rewrite (D x) by (rewrite E, in_app_iff; cbn; tauto). cbn [bind]. rewrite <- L1, wr_app. cbn [bind]. rewrite L1.
      specialize (IH (p ++ [x]) q (res ++ [f x v]) rest).
      rewrite !app_length, <- !app_assoc in IH. cbn [app length] in IH.
      rewrite IH; [reflexivity|exact E|lia|cbn in L2; lia].
  Qed.
  Lemma op_new_ok d f a r v : (forall x, In x a -> deref a r = Ok v) -> op_new d f a r = Ok (map (fun x => f x v) a).
  Proof.
    intros D. unfold op_new. pose proof (op_new_loop_ok f a r v D a [] [] [] (repeat d (length a))) as H.
    cbn [app length] in H. rewrite H; auto; [now rewrite app_nil_r|apply repeat_length].
  Qed.
  Lemma matrix_op_ok f a r v : (forall x, In x a -> deref a r = Ok v) -> matrix_op f a r = Ok (map (fun x => f x v) a).
  Proof.
    intros D. destruct r as [w|k]; cbn [matrix_op].
    - destruct a as [|x a]; [reflexivity|]. rewrite op_assign_val. specialize (D x (or_introl eq_refl)).
      cbn [deref] in D. injection D as D. now subst w.
    - destruct a as [|x a]; [reflexivity|]. specialize (D x (or_introl eq_refl)). cbn [deref] in D. rewrite D. cbn [bind].
      apply op_assign_val.
  Qed.

  (** [Elem k] keeps its value when it is only ever overwritten with it *)
  Definition holds r v a : Prop := deref a r = Ok v.
  Lemma holds_wr r v pre x t : holds r v (pre ++ x :: t) -> holds r v (pre ++ v :: t).
  Proof.
    unfold holds. destruct r as [w|k]; cbn [deref]; [auto|]. unfold rd.
    destruct (Nat.lt_ge_cases k (length pre)).
    - now rewrite !nth_error_app1.
    - rewrite !nth_error_app2 by lia. destruct (k - length pre); [reflexivity|]. cbn. auto.
  Qed.
  Lemma fill_loop_ok r v l : forall pre post, holds r v (pre ++ l ++ post) ->
    fill_loop (pre ++ l ++ post) r (length l) (length pre) = Ok (pre ++ repeat v (length l) ++ post).
  Proof.
    induction l as [|x l IH]; intros pre post H; [reflexivity|]. cbn [fill_loop length app repeat].
    unfold holds in H. cbn [app] in H. rewrite H. cbn [bind]. rewrite wr_app. cbn [bind].
    specialize (IH (pre ++ [v]) post). rewrite app_length, <- !app_assoc in IH. apply IH.
    apply (holds_wr r v pre x). exact H.
  Qed.
  Lemma replace_new_ok eqb o r v l : forall pre post, holds r v (pre ++ l ++ post) ->
    replace_loop eqb (pre ++ l ++ post) (Val o) r (length l) (length pre) =
    Ok (pre ++ map (fun x => if eqb x o then v else x) l ++ post).
  Proof.
    induction l as [|x l IH]; intros pre post H; [reflexivity|]. cbn [replace_loop length app map deref].
    rewrite rd_app. cbn [bind].
    assert (G : forall y, holds r v (pre ++ y :: l ++ post) ->
      replace_loop eqb (pre ++ y :: l ++ post) (Val o) r (length l) (length pre + 1) =
      Ok (pre ++ y :: map (fun x => if eqb x o then v else x) l ++ post)).
    { intros y Hy. specialize (IH (pre ++ [y]) post). rewrite app_length, <- !app_assoc in IH. apply IH. exact Hy. }
    destruct (eqb x o).
    - unfold holds in H. cbn [app] in H. rewrite H. cbn [bind]. rewrite wr_app. cbn [bind]. apply G.
      apply (holds_wr r v pre x). exact H.
    - cbn [bind]. apply G. exact H.
  Qed.
  Lemma replace_if_new_ok p r v l : forall pre post, holds r v (pre ++ l ++ post) ->
    replace_if_loop p (pre ++ l ++ post) r (length l) (length pre) =
    Ok (pre ++ map (fun x => if p x then v else x) l ++ post).
  Proof.
    induction l as [|x l IH]; intros pre post H; [reflexivity|]. cbn [replace_if_loop length app map deref].
    rewrite rd_app. cbn [bind].
    assert (G : forall y, holds r v (pre ++ y :: l ++ post) ->
      replace_if_loop p (pre ++ y :: l ++ post) r (length l) (length pre + 1) =
      Ok (pre ++ y :: map (fun x => if p x then v else x) l ++ post)).
    { intros y Hy. specialize (IH (pre ++ [y]) post). rewrite app_length, <- !app_assoc in IH. apply IH. exact Hy. }
    destruct (p x).
    - unfold holds in H. cbn [app] in H. rewrite H. cbn [bind]. rewrite wr_app. cbn [bind]. apply G.
      apply (holds_wr r v pre x). exact H.
    - cbn [bind]. apply G. exact H.
  Qed.

  Lemma replace_loop_steady eqb r v w l : forall pre post, steady r v pre l post ->
    replace_loop eqb (pre ++ l ++ post) r (Val w) (length l) (length pre) =
    Ok (pre ++ map (fun x => if eqb x v then w else x) l ++ post).
  Proof.
    induction l as [|x l IH]; intros pre post H; [reflexivity|]. cbn [replace_loop length app map].
    rewrite rd_app. cbn [bind]. rewrite (steady_deref _ _ _ _ _ _ H). cbn [bind deref].
    specialize (IH (pre ++ [if eqb x v then w else x]) post (steady_step _ _ _ _ _ _ _ H)).
    rewrite app_length, <- !app_assoc in IH.
    destruct (eqb x v); [rewrite wr_app|]; cbn [bind]; exact IH.
  Qed.
  Lemma replace_loop_app eqb r s n : forall a m i,
    replace_loop eqb a r s (n + m) i = bind (replace_loop eqb a r s n i) (fun a => replace_loop eqb a r s m (i + n)).
  Proof.
    induction n as [|n IH]; intros a m i; cbn [replace_loop Nat.add bind]; [now rewrite Nat.add_0_r|].
    destruct (rd a i) as [x| | |]; cbn [bind]; try reflexivity.
    destruct (deref a r) as [v| | |]; cbn [bind]; try reflexivity.
    destruct (if eqb x v then _ else _) as [b| | |]; cbn [bind]; try reflexivity.
    rewrite IH. f_equal. replace (i + 1 + n) with (i + S n) by lia. reflexivity.
  Qed.
  Lemma replace_arg_elem eqb (p : list T) v q w : (forall x y, eqb x y = true <-> x = y) ->
    replace_arg eqb (p ++ v :: q) (Elem (length p)) (Val w) = Ok (map (fun x => if eqb x v then w else x) p ++ w :: q).
  Proof.
    intros Q. unfold replace_arg. rewrite app_length. cbn [length]. rewrite replace_loop_app.
    pose proof (replace_loop_steady eqb (Elem (length p)) v w p [] (v :: q)) as H1. cbn [app length] in H1.
    rewrite H1; [|right; cbn [length]; split; [lia|]; now rewrite Nat.sub_diag]. cbn [bind Nat.add].
    replace (length p) with (length (map (fun x => if eqb x v then w else x) p)) by apply map_length.
    set (p' := map (fun x => if eqb x v then w else x) p). cbn [replace_loop deref]. rewrite rd_app. cbn [bind].
    rewrite (proj2 (Q v v) eq_refl). rewrite wr_app. cbn [bind].
    pose proof (replace_loop_steady eqb (Elem (length p')) w w q (p' ++ [w]) []) as H2.
    rewrite app_nil_r, app_length, <- app_assoc in H2. cbn [app length] in H2. rewrite H2.
    - rewrite app_nil_r, <- app_assoc. cbn [app]. do 3 f_equal. rewrite <- (map_id q) at 2. apply map_ext. intros x.
      destruct (eqb x w) eqn:E; [|reflexivity]. apply Q in E. now subst.
    - left. rewrite app_length. cbn. split; [lia|]. rewrite nth_error_app2, Nat.sub_diag by lia. reflexivity.
  Qed.
End Algo.

Section Vec.
  Context {T : Type}.
  Variable e : env.
  Variable es : Z.
  Variable dflt : T.
  Hypothesis Hes : (0 < es)%Z.
  Hypothesis Hmem : enough_memory e.
  Implicit Types (v : vec T) (l : list T).

  Lemma construct_from_ok srcs : forall (cells : list (option T)) i xs,
    Forall2 (fun s x => nth_error cells s = Some (Some x)) srcs xs ->
    construct_from cells i srcs = construct cells i xs.
  Proof.
    induction srcs as [|s srcs IH]; intros cells i xs F; inversion F as [|? x ? xs' E F']; subst; [reflexivity|].
    cbn [construct_from construct]. unfold rd at 1. rewrite E. cbn [bind].
    destruct (rd cells i) as [[y|]| | |] eqn:R; cbn [bind]; try reflexivity.
    unfold wr. destruct (upd cells i (Some x)) as [cs|] eqn:U; cbn [bind]; [|reflexivity].
    apply IH. clear E F IH. induction F' as [|s' x' ss xs'' Hs F' IHF]; constructor; [|exact IHF]. unfold rd in R. destruct (nth_error cells i) as [c|] eqn:N; [|discriminate].
    injection R as R. subst c.
    destruct (Nat.eq_dec s' i) as [->|D]; [congruence|].
    rewrite <- Hs. clear - U D. revert i cs s' U D. induction cells as [|h t IH']; intros [|i] cs s' U D; cbn [upd] in U; try discriminate.
    - injection U as U. subst cs. destruct s'; [lia|reflexivity].
    - destruct (upd t i (Some x)) as [t'|] eqn:U'; [|discriminate]. injection U as U. subst cs.
      destruct s' as [|s']; [reflexivity|]. cbn. apply (IH' i t' s' U'). lia.
  Qed.
  Lemma cell_of l i x post : nth_error l i = Some x -> nth_error (map (@Some T) l ++ post) i = Some (Some x).
  Proof.
    intros H. assert (i < length l) by (apply nth_error_Some; congruence).
    rewrite nth_error_app1 by (rewrite map_length; lia). now apply map_nth_error.
  Qed.
  Lemma F2_repeat {A B} (R : A -> B -> Prop) a b n : R a b -> Forall2 R (repeat a n) (repeat b n).
  Proof. intros H. induction n; cbn; constructor; auto. Qed.

  Lemma reserve_mv v l n : Vinv es v l -> (es * Z.of_nat n <= 2 ^ 31)%Z ->
    exists v' mv, vreserve_bytes e es v (bytes es n) false = Ok (v', mv) /\ Vinv es v' l /\
      (es * Z.of_nat n <= vcap v')%Z /\
      (mv = false -> v' = v) /\ (mv = true <-> (vcap v < es * Z.of_nat n)%Z).
  Proof.
    intros H Hb. destruct (reserve_ok e es Hes Hmem v l _ false H Hb) as (v' & mv & R & I & Hc & U & W).
    exists v', mv. unfold bytes. split; [exact R|]. split; [exact I|]. split; [exact Hc|]. split; [exact U|].
    split; intros Q.
    - destruct (Z.lt_ge_cases (vcap v) (es * Z.of_nat n)) as [|G]; [assumption|]. rewrite W in Q by lia. discriminate.
    - unfold vreserve_bytes in R. destruct (Z.leb_spec (es * Z.of_nat n) (vcap v)); [lia|].
      destruct (malloc_ok e _); [|discriminate]. injection R as R1 R2. symmetry. exact R2.
  Qed.

  Lemma resize_own_ok v l n i x : Vinv es v l -> nth_error l i = Some x -> (es * Z.of_nat n <= vcap v)%Z ->
    exists v', resize_own e es v n i = Ok v' /\ Vinv es v' (seq_resize l n x).
  Proof.
    intros H Hx Hc. assert (Hb : (es * Z.of_nat n <= 2 ^ 31)%Z) by (pose proof H as (_ & _ & _ & ?); lia).
    destruct (resize_with_ok e es Hes Hmem v l n x H Hb) as (v2 & E2 & I2). exists v2. split; [|exact I2].
    rewrite <- E2. unfold resize_own, resize_with.
    destruct (reserve_mv v l n H Hb) as (v' & mv & R & I & Hc' & U & W).
    rewrite R. cbn [bind]. destruct (n <? vsize v); [reflexivity|].
    assert (mv = false) as -> by (destruct mv; [apply proj1 in W; specialize (W eq_refl); lia|reflexivity]).
    specialize (U eq_refl). subst v'. f_equal.
    apply construct_from_ok. apply F2_repeat. destruct H as ((k & E) & _). rewrite E. apply cell_of. exact Hx.
  Qed.
  Lemma resize_own_UB v l n i : Vinv es v l -> (es * Z.of_nat n <= 2 ^ 31)%Z -> (vcap v < es * Z.of_nat n)%Z ->
    resize_own e es v n i = UB.
  Proof.
    intros H Hb Hc. unfold resize_own. destruct (reserve_mv v l n H Hb) as (v' & mv & R & I & Hc' & U & W).
    rewrite R. cbn [bind]. apply W in Hc. subst mv.
    pose proof (Vinv_cap es Hes v l H) as Hcap. destruct H as (_ & S & _). rewrite S.
    destruct (Nat.ltb_spec n (length l)) as [L|L]; [|reflexivity].
    assert (es * Z.of_nat n <= es * Z.of_nat (length l))%Z by nia.
    destruct W as [W _]. specialize (W eq_refl). lia.
  Qed.

  (** after resize (n) *)
  Lemma resize_moved_ok v l n : Vinv es v l -> (es * Z.of_nat n <= 2 ^ 31)%Z ->
    exists v' mv, resize_moved e es dflt v n = Ok (v', mv) /\ Vinv es v' (seq_resize l n dflt) /\
      (mv = true <-> (vcap v < es * Z.of_nat n)%Z).
  Proof.
    intros H Hb. unfold resize_moved. destruct (reserve_mv v l n H Hb) as (v1 & mv & R & _ & _ & _ & W).
    rewrite R. cbn [bind]. destruct (resize_with_ok e es Hes Hmem v l n dflt H Hb) as (v' & E & I).
    unfold resize. rewrite E. cbn [bind]. eauto.
  Qed.

  Lemma assign_from_const k x n : forall (cells : list (option T)) i, nth_error cells k = Some (Some x) ->
    assign_from cells i (repeat k n) = assign_cells cells i (repeat x n).
  Proof.
    induction n as [|n IH]; intros cells i H; [reflexivity|]. cbn [repeat assign_from assign_cells].
    unfold rd at 1. rewrite H. cbn [bind]. destruct (rd cells i) as [[y|]| | |] eqn:R; cbn [bind]; try reflexivity.
    unfold wr. destruct (upd cells i (Some x)) as [cs|] eqn:U; cbn [bind]; [|reflexivity].
    apply IH. clear - U H. revert i k cs U H. induction cells as [|h t IH']; intros [|i] k cs U H; cbn [upd] in U; try discriminate.
    - injection U as U. subst cs. destruct k; [reflexivity|exact H].
    - destruct (upd t i (Some x)) as [t'|] eqn:U'; [|discriminate]. injection U as U. subst cs.
      destruct k as [|k]; [exact H|]. cbn in *. apply (IH' i k t' U' H).
  Qed.

  Lemma nth_error_firstn' l : forall n i, i < n -> nth_error (firstn n l) i = nth_error l i.
  Proof.
    induction l as [|h t IH]; intros n i L; [now rewrite firstn_nil|]. destruct n; [lia|]. destruct i; [reflexivity|].
    cbn. apply IH. lia.
  Qed.
  Lemma seq_resize_nth l n i x : nth_error l i = Some x -> i < n -> nth_error (seq_resize l n dflt) i = Some x.
  Proof.
    intros H L. assert (i < length l) by (apply nth_error_Some; congruence). unfold seq_resize.
    rewrite nth_error_app1 by (rewrite firstn_length; lia). rewrite nth_error_firstn' by exact L. exact H.
  Qed.

  Lemma assign_n_own_ok v l n i x : Vinv es v l -> nth_error l i = Some x -> i < n -> (es * Z.of_nat n <= vcap v)%Z ->
    exists v', assign_n_own e es dflt v n i = Ok v' /\ Vinv es v' (repeat x n).
  Proof.
    intros H Hx Hi Hc. assert (Hb : (es * Z.of_nat n <= 2 ^ 31)%Z) by (pose proof H as (_ & _ & _ & ?); lia).
    unfold assign_n_own. destruct (resize_moved_ok v l n H Hb) as (v' & mv & R & I & W). rewrite R. cbn [bind].
    assert (mv = false) as -> by (destruct mv; [apply proj1 in W; specialize (W eq_refl); lia|reflexivity]).
    destruct I as ((k & E) & S & L & C). rewrite E.
    rewrite (assign_from_const i x n) by (apply cell_of; apply seq_resize_nth; auto).
    pose proof (assign_cells_ok (repeat x n) [] (seq_resize l n dflt) (repeat None k)) as A. cbn [app length] in A.
    rewrite A by (rewrite repeat_length; apply seq_resize_length). cbn [bind].
    eexists; split; [reflexivity|]. apply Vinv_mk2; [rewrite repeat_length, S; apply seq_resize_length| |exact C].
    rewrite repeat_length, <- L, E, app_length, map_length, repeat_length, seq_resize_length. reflexivity.
  Qed.
  Lemma assign_n_own_UB v l n i : Vinv es v l -> i < length l -> (es * Z.of_nat n <= 2 ^ 31)%Z ->
    0 < n -> n <= i \/ (vcap v < es * Z.of_nat n)%Z -> assign_n_own e es dflt v n i = UB.
  Proof.
    intros H Hi Hb Hn Q. unfold assign_n_own. destruct (resize_moved_ok v l n H Hb) as (v' & mv & R & I & W). rewrite R. cbn [bind].
    destruct mv; [reflexivity|]. destruct Q as [Q|Q]; [|apply W in Q; discriminate].
    destruct I as ((k & E) & S & L & C). rewrite E. destruct n as [|n]; [lia|]. cbn [repeat assign_from].
    unfold rd. rewrite nth_error_app2 by (rewrite map_length, seq_resize_length; lia).
    destruct (nth_error (repeat None k) _) as [c|] eqn:N; [|reflexivity].
    apply nth_error_In, repeat_spec in N. subst c. reflexivity.
  Qed.

  Lemma assign_from_UB m : forall l d s r, 0 < m -> d < s -> length l < s + m -> d + m <= length l ->
    assign_from (map (@Some T) l ++ repeat None r) d (seq s m) = UB.
  Proof.
    induction m as [|m IH]; intros l d s r H0 H1 H3 H4; [lia|]. cbn [seq assign_from].
    destruct (Nat.le_gt_cases (length l) s) as [N|N].
    - unfold rd. rewrite nth_error_app2 by (rewrite map_length; lia).
      destruct (nth_error (repeat None r) _) as [c|] eqn:F; [|reflexivity].
      apply nth_error_In, repeat_spec in F. subst c. reflexivity.
    - destruct (nth_error l s) as [x|] eqn:Ex; [|apply nth_error_None in Ex; lia].
      unfold rd at 1. rewrite (cell_of l s x) by exact Ex. cbn [bind].
      destruct (nth_error l d) as [y|] eqn:Ey; [|apply nth_error_None in Ey; lia].
      apply nth_error_split in Ey. destruct Ey as (p & q & -> & Lp).
      rewrite map_app, <- app_assoc. cbn [map app].
      pose proof (assign_cells_ok [x] (map Some p) [y] (map Some q ++ repeat None r) eq_refl) as A.
      rewrite map_length, Lp in A. cbn [map app] in A. rewrite A. cbn [bind].
      specialize (IH (p ++ x :: q) (S d) (S s) r). rewrite map_app, <- app_assoc in IH. cbn [map app] in IH.
      apply IH; rewrite app_length in *; cbn [length] in *; lia.
  Qed.
  Lemma assign_from_self m : forall l d r, d + m <= length l ->
    assign_from (map (@Some T) l ++ repeat None r) d (seq d m) = Ok (map (@Some T) l ++ repeat None r).
  Proof.
    induction m as [|m IH]; intros l d r H; [reflexivity|]. cbn [seq assign_from].
    destruct (nth_error l d) as [x|] eqn:Ex; [|apply nth_error_None in Ex; lia].
    unfold rd at 1. rewrite (cell_of l d x) by exact Ex. cbn [bind].
    pose proof Ex as Ey. apply nth_error_split in Ey. destruct Ey as (p & q & -> & Lp).
    assert (E1 : assign_cells (map (@Some T) (p ++ x :: q) ++ repeat None r) d [x] = Ok (map (@Some T) (p ++ x :: q) ++ repeat None r)).
    { rewrite map_app, <- app_assoc. cbn [map app].
      pose proof (assign_cells_ok [x] (map Some p) [x] (map Some q ++ repeat None r) eq_refl) as A.
      rewrite map_length, Lp in A. cbn [map app] in A. exact A. }
    rewrite E1. cbn [bind]. apply IH. lia.
  Qed.
  Lemma assign_range_own_UB v l i j : Vinv es v l -> 0 < i < j -> j <= length l -> assign_range_own e es dflt v i j = UB.
  Proof.
    intros H Hi Hj. unfold assign_range_own. destruct (Nat.ltb_spec j i); [lia|].
    pose proof (Vinv_cap es Hes v l H) as Hcap. assert (Hb : (es * Z.of_nat (j - i) <= 2 ^ 31)%Z) by (pose proof H as (_ & _ & _ & ?); nia).
    destruct (resize_moved_ok v l (j - i) H Hb) as (v' & mv & R & I & W). rewrite R. cbn [bind].
    destruct mv; [reflexivity|]. destruct I as ((k & E) & S & L & C). rewrite E.
    rewrite assign_from_UB; [reflexivity| | | |]; rewrite ?seq_resize_length; lia.
  Qed.
  Lemma assign_range_own_0 v l j : Vinv es v l -> j <= length l ->
    exists v', assign_range_own e es dflt v 0 j = Ok v' /\ Vinv es v' (firstn j l).
  Proof.
    intros H Hj. unfold assign_range_own. change (j <? 0) with false. cbn iota. rewrite Nat.sub_0_r.
    pose proof (Vinv_cap es Hes v l H) as Hcap. assert (Hb : (es * Z.of_nat j <= 2 ^ 31)%Z) by (pose proof H as (_ & _ & _ & ?); nia).
    destruct (resize_moved_ok v l j H Hb) as (v' & mv & R & I & W). rewrite R. cbn [bind].
    assert (mv = false) as -> by (destruct mv; [apply proj1 in W; specialize (W eq_refl); nia|reflexivity]).
    pose proof I as I0. destruct I as ((k & E) & S & L & C). rewrite E.
    rewrite assign_from_self by (rewrite seq_resize_length; lia). cbn [bind].
    eexists; split; [reflexivity|].
    replace (firstn j l) with (seq_resize l j dflt).
    - rewrite S. apply Vinv_mk2; [reflexivity| |exact C]. rewrite <- L, E, app_length, map_length, repeat_length. reflexivity.
    - unfold seq_resize. replace (j - length l) with 0 by lia. cbn [repeat]. apply app_nil_r.
  Qed.

  Hypothesis Henv : good_env e.
  Hypothesis H4 : (es mod 4 = 0)%Z.
  Lemma hole_own v l ip n : Vinv es v l -> ip <= length l -> (es * Z.of_nat (length l + n) <= vcap v)%Z ->
    exists v' r, insert_hole e es v ip n = Ok (v', false) /\
      vcells v' = map Some (firstn ip l) ++ repeat None n ++ map Some (skipn ip l) ++ repeat None r /\
      vsize v' = length l + n /\ length l + n + r = Z.to_nat (vcap v' / es) /\ (0 <= vcap v' <= 2 ^ 31)%Z.
  Proof.
    intros H Hi Hc. assert (Hb : (es * Z.of_nat (length l + n) <= 2 ^ 31)%Z) by (pose proof H as (_ & _ & _ & ?); lia).
    destruct (rot_good_4 es (Z.of_nat ip) (Z.of_nat (length l)) (Z.of_nat (length l + n)) H4) as [G|G]; [|nia].
    destruct (insert_hole_ok e es Hes Henv Hmem v l ip n H Hi Hb G) as (v' & mv & r & E & C & S & L & B & W).
    specialize (W Hc). subst mv. eauto 10.
  Qed.
  Lemma hole_low l ip s x rest : s < ip -> nth_error l s = Some x ->
    nth_error (map (@Some T) (firstn ip l) ++ rest) s = Some (Some x).
  Proof. intros L E. apply cell_of. rewrite nth_error_firstn' by exact L. exact E. Qed.
  Lemma hole_in l ip n s rest : ip <= length l -> ip <= s < ip + n ->
    nth_error (map (@Some T) (firstn ip l) ++ repeat None n ++ rest) s = Some None.
  Proof.
    intros L H. rewrite nth_error_app2 by (rewrite map_length, firstn_length; lia).
    rewrite map_length, firstn_length. replace (Nat.min ip (length l)) with ip by lia.
    rewrite nth_error_app1 by (rewrite repeat_length; lia). apply nth_error_repeat. lia.
  Qed.
  Lemma hole_high l ip n s x rest : ip <= length l -> ip + n <= s -> nth_error l (s - n) = Some x ->
    nth_error (map (@Some T) (firstn ip l) ++ repeat None n ++ map Some (skipn ip l) ++ rest) s = Some (Some x).
  Proof.
    intros L H E. rewrite nth_error_app2 by (rewrite map_length, firstn_length; lia).
    rewrite map_length, firstn_length. replace (Nat.min ip (length l)) with ip by lia.
    rewrite nth_error_app2 by (rewrite repeat_length; lia). rewrite repeat_length. apply cell_of.
    rewrite <- E. rewrite <- (firstn_skipn ip l) at 2. rewrite nth_error_app2 by (rewrite firstn_length; lia).
    rewrite firstn_length. f_equal. lia.
  Qed.
  Lemma fill_hole v' l ip n xs r : length xs = n -> ip <= length l ->
    vsize v' = length l + n -> length l + n + r = Z.to_nat (vcap v' / es) -> (0 <= vcap v' <= 2 ^ 31)%Z ->
    exists cells, construct (map Some (firstn ip l) ++ repeat None n ++ map Some (skipn ip l) ++ repeat None r) ip xs = Ok cells /\
      Vinv es (mkvec cells (vsize v') (vcap v')) (seq_insert l ip xs).
  Proof.
    intros <- Hi S L B. pose proof (construct_ok xs (map Some (firstn ip l)) (map Some (skipn ip l) ++ repeat None r)) as D.
    rewrite map_length, firstn_length in D. replace (Nat.min ip (length l)) with ip in D by lia. rewrite D.
    eexists; split; [reflexivity|].
    replace (map Some (firstn ip l) ++ map Some xs ++ map Some (skipn ip l) ++ repeat None r)
      with (map Some (seq_insert l ip xs) ++ repeat None r) by (unfold seq_insert; rewrite !map_app, <- !app_assoc; reflexivity).
    assert (Hlen : length (seq_insert l ip xs) = length l + length xs).
    { unfold seq_insert. rewrite !app_length, firstn_length, skipn_length. lia. }
    apply Vinv_mk2; [lia|lia|exact B].
  Qed.

  (** insert (ip, n, v[i]): which element is inserted *)
  Lemma insert_n_own_any v l ip n i x : Vinv es v l -> ip <= length l -> (es * Z.of_nat (length l + n) <= vcap v)%Z ->
    (i < ip /\ nth_error l i = Some x \/ ip + n <= i /\ nth_error l (i - n) = Some x) ->
    exists v', insert_n_own e es v ip n i = Ok v' /\ Vinv es v' (seq_insert l ip (repeat x n)).
  Proof.
    intros H Hi Hc Hx. destruct (hole_own v l ip n H Hi Hc) as (v' & r & E & C & S & L & B).
    unfold insert_n_own. rewrite E. cbn [bind]. rewrite C.
    rewrite (construct_from_ok (repeat i n) _ ip (repeat x n)).
    - destruct (fill_hole v' l ip n (repeat x n) r (repeat_length _ _) Hi S L B) as (cells & K & I).
      rewrite K. cbn [bind]. eauto.
    - apply F2_repeat. destruct Hx as [[Q F]|[Q F]]; [apply hole_low|apply hole_high]; auto.
  Qed.
  Lemma insert_n_own_UB v l ip n i : Vinv es v l -> ip <= length l -> (es * Z.of_nat (length l + n) <= vcap v)%Z ->
    0 < n -> ip <= i < ip + n -> insert_n_own e es v ip n i = UB.
  Proof.
    intros H Hi Hc Hn Hx. destruct (hole_own v l ip n H Hi Hc) as (v' & r & E & C & S & L & B).
    unfold insert_n_own. rewrite E. cbn [bind]. rewrite C. destruct n as [|n]; [lia|]. cbn [repeat construct_from].
    unfold rd. change (None :: repeat None n) with (repeat (@None T) (Datatypes.S n)). now rewrite hole_in.
  Qed.

  (** without room the block is reallocated *)
  Lemma hole_moved v l ip n : Vinv es v l -> ip <= length l -> (es * Z.of_nat (length l + n) <= 2 ^ 31)%Z -> (vcap v < es * Z.of_nat (length l + n))%Z ->
    exists v', insert_hole e es v ip n = Ok (v', true).
  Proof.
    intros H Hi Hb Hc.
    destruct (rot_good_4 es (Z.of_nat ip) (Z.of_nat (length l)) (Z.of_nat (length l + n)) H4) as [G|G]; [|nia].
    destruct (insert_hole_ok e es Hes Henv Hmem v l ip n H Hi Hb G) as (v' & mv & r & E & _). exists v'. rewrite E.
    destruct (reserve_mv v l (length l + n) H Hb) as (w & mw & R & _ & _ & _ & W). apply W in Hc. subst mw.
    unfold insert_hole, vreserve in E. pose proof H as (_ & S & _). rewrite S in E.
    destruct (length l <? ip); [discriminate|]. rewrite R in E. cbn [bind] in E.
    match type of E with bind ?q _ = _ => destruct q as [[? ?]| | |]; cbn [bind] in E; try discriminate E end.
    match type of E with bind ?q _ = _ => destruct q as [?| | |]; cbn [bind] in E; try discriminate E end. congruence.
  Qed.
  Lemma insert_own_moved_UB v l ip : Vinv es v l -> ip <= length l ->
    (forall n i, (es * Z.of_nat (length l + n) <= 2 ^ 31)%Z -> (vcap v < es * Z.of_nat (length l + n))%Z -> insert_n_own e es v ip n i = UB) /\
    (forall i j, i <= j -> (es * Z.of_nat (length l + (j - i)) <= 2 ^ 31)%Z -> (vcap v < es * Z.of_nat (length l + (j - i)))%Z ->
       insert_range_own e es v ip i j = UB).
  Proof.
    intros H Hi. split.
    - intros n i Hb Hc. destruct (hole_moved v l ip n H Hi Hb Hc) as (v' & E). unfold insert_n_own. rewrite E. reflexivity.
    - intros i j _ Hb Hc. destruct (hole_moved v l ip (j - i) H Hi Hb Hc) as (v' & E). unfold insert_range_own.
      destruct (j <? i); [reflexivity|]. rewrite E. reflexivity.
  Qed.

  Lemma F2_seq (cells : list (option T)) l : forall n i d, (forall s, i <= s < i + n -> exists x,
      nth_error l (s - d) = Some x /\ nth_error cells s = Some (Some x)) -> d <= i ->
    Forall2 (fun s x => nth_error cells s = Some (Some x)) (seq i n) (firstn n (skipn (i - d) l)).
  Proof.
    induction n as [|n IH]; intros i d H D; [constructor|]. cbn [seq].
    destruct (H i ltac:(lia)) as (x & E & N).
    assert (K : skipn (i - d) l = x :: skipn (Datatypes.S i - d) l).
    { replace (Datatypes.S i - d) with (Datatypes.S (i - d)) by lia. clear - E. revert E. generalize (i - d) as m.
      induction l as [|h t IHl]; intros [|m] E; cbn in *; try discriminate; [congruence|]. apply IHl. exact E. }
    rewrite K. cbn [firstn]. constructor; [exact N|]. apply IH; [|lia]. intros s Hs. apply H. lia.
  Qed.
  Lemma insert_range_own_low v l ip i j : Vinv es v l -> i <= j -> j <= ip -> ip <= length l ->
    (es * Z.of_nat (length l + (j - i)) <= vcap v)%Z ->
    exists v', insert_range_own e es v ip i j = Ok v' /\ Vinv es v' (seq_insert l ip (slice l i j)).
  Proof.
    intros H Hij Hj Hi Hc. destruct (hole_own v l ip (j - i) H Hi Hc) as (v' & r & E & C & S & L & B).
    unfold insert_range_own. destruct (Nat.ltb_spec j i); [lia|]. rewrite E. cbn [bind]. rewrite C.
    assert (Len : length (slice l i j) = j - i) by (unfold slice; rewrite firstn_length, skipn_length; lia).
    rewrite (construct_from_ok (seq i (j - i)) _ ip (slice l i j)).
    - destruct (fill_hole v' l ip (j - i) (slice l i j) r Len Hi S L B) as (cells & K & I).
      rewrite K. cbn [bind]. eauto.
    - unfold slice. pose proof (F2_seq (map Some (firstn ip l) ++ repeat None (j - i) ++ map Some (skipn ip l) ++ repeat None r) l (j - i) i 0) as F.
      rewrite Nat.sub_0_r in F. apply F; [|lia]. intros s Hs. rewrite Nat.sub_0_r.
      destruct (nth_error l s) as [x|] eqn:Ex; [|apply nth_error_None in Ex; lia].
      exists x. split; [reflexivity|]. apply hole_low; [lia|exact Ex].
  Qed.
  (** every range that does not end before the insertion point *)
  Lemma insert_range_own_mid v l ip i j : Vinv es v l -> ip <= i < ip + (j - i) -> j <= length l ->
    (es * Z.of_nat (length l + (j - i)) <= vcap v)%Z -> insert_range_own e es v ip i j = UB.
  Proof.
    intros H Hij Hj Hc. destruct (hole_own v l ip (j - i) H ltac:(lia) Hc) as (v' & r & E & C & S & L & B).
    unfold insert_range_own. destruct (Nat.ltb_spec j i); [lia|]. rewrite E. cbn [bind]. rewrite C.
    destruct (j - i) as [|n] eqn:J; [lia|]. cbn [seq construct_from].
    unfold rd. now rewrite hole_in by lia.
  Qed.
  Lemma insert_range_own_high v l ip i j : Vinv es v l -> i <= j -> ip + (j - i) <= i -> j <= length l ->
    (es * Z.of_nat (length l + (j - i)) <= vcap v)%Z ->
    exists v', insert_range_own e es v ip i j = Ok v' /\
      Vinv es v' (seq_insert l ip (slice l (i - (j - i)) i)).
  Proof.
    intros H Hij Hp Hj Hc. destruct (hole_own v l ip (j - i) H ltac:(lia) Hc) as (v' & r & E & C & S & L & B).
    unfold insert_range_own. destruct (Nat.ltb_spec j i); [lia|]. rewrite E. cbn [bind]. rewrite C.
    assert (Len : length (slice l (i - (j - i)) i) = j - i) by (unfold slice; rewrite firstn_length, skipn_length; lia).
    rewrite (construct_from_ok (seq i (j - i)) _ ip (slice l (i - (j - i)) i)).
    - destruct (fill_hole v' l ip (j - i) _ r Len ltac:(lia) S L B) as (cells & K & I).
      rewrite K. cbn [bind]. eauto.
    - unfold slice. replace (i - (i - (j - i))) with (j - i) by lia. apply F2_seq; [|lia]. intros s Hs.
      destruct (nth_error l (s - (j - i))) as [x|] eqn:Ex; [|apply nth_error_None in Ex; lia].
      exists x. split; [reflexivity|]. apply hole_high; [lia|lia|exact Ex].
  Qed.
End Vec.
