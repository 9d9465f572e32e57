(** * VecLinkProofs: linked vectors. *)
From Verif Require Import Base UtilModel UtilProofs StoreModel VectorModel VectorSpec StoreProofs NumericProofs
  VectorProofs VecLinkModel VecLinkSpec.
From Coq Require Import ZArith ZifyBool ZifyNat.
Local Open Scope nat_scope.

Section P.
  Context {T : Type}.
  Variable e : env.
  Variable es : Z.
  Variable dflt : T.
  Hypothesis Hes : (0 < es)%Z.
  Hypothesis Henv : good_env e.
  Hypothesis Hmem : enough_memory e.
  Implicit Types (s : lvec T) (sp : spec T) (l : list T).

  Definition Linv s sp : Prop :=
    larr s = map Some (s_arr sp) /\ lnk s = s_linked sp /\ lrel s = [] /\
    if s_linked sp
    then lv s = mkvec [] (length (s_seq sp)) 0%Z /\ length (s_seq sp) < length (s_arr sp) /\
         s_seq sp = firstn (length (s_seq sp)) (s_arr sp) /\ (es * Z.of_nat (length (s_seq sp)) <= 2 ^ 31)%Z
    else Vinv es (lv s) (s_seq sp).

  Lemma grow_size newSize (b : bool) : (0 < newSize <= 2 ^ 31)%Z ->
    (newSize <= (if b then newSize else next_pow2 newSize) <= 2 ^ 31)%Z.
  Proof.
    intros H. destruct b; [lia|]. destruct (Z.eq_dec newSize 1) as [->|]; [cbn; lia|].
    pose proof (next_pow2_ok newSize ltac:(lia)) as Hp.
    split; [apply next_pow2_ge; lia|].
    rewrite next_pow2_val by lia. apply Z.pow_le_mono_r; [lia|].
    assert (Z.log2 (newSize - 1) <= Z.log2 (2 ^ 31 - 1))%Z by (apply Z.log2_le_mono; lia).
    change (Z.log2 (2 ^ 31 - 1)) with 30%Z in *. lia.
  Qed.

  Lemma adopt_ok s sp newSize b : Linv s sp -> s_linked sp = true -> (0 < newSize <= 2 ^ 31)%Z ->
    exists c, (newSize <= c <= 2 ^ 31)%Z /\
      adopt e es s newSize b = Ok (mklv (map Some (s_arr sp)) false
        (mkvec (realloc_cells (map Some (s_seq sp)) (Z.to_nat (c / es))) (length (s_seq sp)) c) []).
  Proof.
    intros (A & K & R & I) Hl Hn. rewrite Hl in *. destruct I as (V & Hlt & Hs & Hsz).
    pose proof (grow_size newSize b Hn) as G.
    exists (if b then newSize else next_pow2 newSize). split; [exact G|].
    unfold adopt. replace (newSize <=? 0)%Z with false by lia.
    cbv zeta. rewrite (Hmem _) by lia. cbn [negb]. rewrite V. cbn [vsize].
    rewrite A, map_length, R.
    match goal with |- context [(?x <? ?y)%Z] => replace (x <? y)%Z with false by nia end.
    do 3 f_equal. f_equal. rewrite firstn_map, <- Hs. reflexivity.
  Qed.
  (** Enough room: a vector that owns the same sequence. *)
  Lemma adopted_Vinv l c : (es * Z.of_nat (length l) <= c <= 2 ^ 31)%Z ->
    Vinv es (mkvec (realloc_cells (map Some l) (Z.to_nat (c / es))) (length l) c) l.
  Proof.
    intros H. assert (L : length l <= Z.to_nat (c / es)).
    { assert (Z.of_nat (length l) <= c / es)%Z by (apply Z.div_le_lower_bound; lia). lia. }
    pose proof (realloc_cells_eq l 0 (Z.to_nat (c / es)) L) as E. cbn [repeat] in E. rewrite app_nil_r in E.
    rewrite E. apply Vinv_mk; lia.
  Qed.

  Lemma owned_ok s sp o : Linv s sp -> s_linked sp = false ->
    op_pre es dflt (s_seq sp) o -> op_moves_ok es (s_seq sp) o = true ->
    exists s', owned_step e es dflt true s o = Ok s' /\
      Linv s' (mkspec (s_arr sp) false (seq_step dflt (s_seq sp) o)).
  Proof.
    intros (A & K & R & I) Hl Hp Hm. rewrite Hl in *.
    destruct (vstep_ok e es dflt Hes Henv Hmem _ _ _ I Hp Hm) as (v' & E & I').
    unfold owned_step. rewrite E. cbn [bind]. eexists. split; [reflexivity|].
    unfold Linv. cbn [larr lnk lrel lv s_arr s_linked s_seq]. auto.
  Qed.
  Lemma adopt_owned s sp o k b : Linv s sp -> s_linked sp = true -> length (s_seq sp) <= k -> 0 < k ->
    (es * Z.of_nat k <= 2 ^ 31)%Z -> op_pre es dflt (s_seq sp) o -> op_moves_ok es (s_seq sp) o = true ->
    exists s1 s', adopt e es s (bytes es k) b = Ok s1 /\ lnk s1 = false /\
      owned_step e es dflt true s1 o = Ok s' /\
      Linv s' (mkspec (s_arr sp) false (seq_step dflt (s_seq sp) o)).
  Proof.
    intros H Hl Hk H0 Hb Hp Hm.
    destruct (adopt_ok s sp (bytes es k) b H Hl) as (c & Hc & E); [unfold bytes; nia|].
    pose proof (adopted_Vinv (s_seq sp) c ltac:(unfold bytes in Hc; nia)) as V.
    assert (L1 : Linv (mklv (map Some (s_arr sp)) false
        (mkvec (realloc_cells (map Some (s_seq sp)) (Z.to_nat (c / es))) (length (s_seq sp)) c) [])
        (mkspec (s_arr sp) false (s_seq sp))) by (split; [reflexivity|]; split; [reflexivity|]; split; [reflexivity|]; exact V).
    destruct (owned_ok _ _ o L1 eq_refl Hp Hm) as (s' & E' & I').
    eexists _, s'. split; [exact E|]. split; [reflexivity|]. auto.
  Qed.

  Lemma cut_ok s sp k b : Linv s sp -> s_linked sp = true -> 0 < k < length (s_seq sp) ->
    (es * Z.of_nat k <= 2 ^ 31)%Z ->
    exists s1 s', adopt e es s (bytes es k) b = Ok s1 /\ lnk s1 = false /\
      cut e es dflt true s1 k = Ok s' /\ Linv s' (mkspec (s_arr sp) false (firstn k (s_seq sp))).
  Proof.
    intros H Hl Hk Hb.
    destruct (adopt_ok s sp (bytes es k) b H Hl) as (c & Hc & E); [unfold bytes; nia|].
    eexists _, _. split; [exact E|]. split; [reflexivity|]. split; [reflexivity|].
    unfold Linv. cbn [larr lnk lrel lv s_arr s_linked s_seq vcells vcap].
    split; [reflexivity|]. split; [reflexivity|]. split; [reflexivity|].
    set (m := Z.to_nat (c / es)).
    assert (Km : k <= m).
    { assert (Z.of_nat k <= c / es)%Z by (apply Z.div_le_lower_bound; unfold bytes in *; lia). lia. }
    assert (Lr : length (realloc_cells (map Some (s_seq sp)) m) = m).
    { unfold realloc_cells. rewrite app_length, firstn_length, repeat_length, map_length. lia. }
    assert (Fr : firstn k (realloc_cells (map Some (s_seq sp)) m) = map Some (firstn k (s_seq sp))).
    { unfold realloc_cells. rewrite firstn_app, firstn_firstn, map_length.
      replace (Nat.min k m) with k by lia.
      rewrite firstn_length, map_length. replace (k - Nat.min m (length (s_seq sp))) with 0 by lia.
      cbn [firstn]. rewrite app_nil_r, firstn_map. reflexivity. }
    rewrite Lr, Fr. apply Vinv_mk2.
    - rewrite firstn_length. lia.
    - rewrite firstn_length. unfold m in *. lia.
    - unfold bytes in Hc. nia.
  Qed.

  Lemma seq_resize_cut l k x : k <= length l -> seq_resize l k x = firstn k l.
  Proof. intros H. unfold seq_resize. replace (k - length l) with 0 by lia. apply app_nil_r. Qed.

  Lemma linked_shrunk s sp n : Linv s sp -> s_linked sp = true -> n <= length (s_seq sp) ->
    Linv (mklv (larr s) true (mkvec [] n 0%Z) (lrel s)) (mkspec (s_arr sp) true (firstn n (s_seq sp))).
  Proof.
    intros (A & K & R & I) Hl Hn. rewrite Hl in *. destruct I as (V & Hlt & Hs & Hsz).
    unfold Linv. cbn [larr lnk lrel lv s_arr s_linked s_seq].
    rewrite firstn_length, Nat.min_l by exact Hn.
    split; [exact A|]. split; [reflexivity|]. split; [exact R|]. split; [reflexivity|]. split; [lia|].
    split; [|nia]. rewrite Hs at 1. rewrite firstn_firstn, Nat.min_l by exact Hn. reflexivity.
  Qed.

  Lemma linked_resize_ok s sp n x : Linv s sp -> s_linked sp = true -> (es * Z.of_nat n <= 2 ^ 31)%Z ->
    exists s', linked_resize e es dflt true s n x = Ok s' /\
      Linv s' (mkspec (s_arr sp) (Nat.eqb n 0) (seq_resize (s_seq sp) n x)).
  Proof.
    intros H Hl Hb. pose proof H as (A & K & R & I). pose proof I as I0. rewrite Hl in I0. destruct I0 as (V & Hlt & Hs & Hsz).
    unfold linked_resize. destruct n as [|n].
    - unfold adopt, bytes. replace (es * Z.of_nat 0 <=? 0)%Z with true by lia. cbn [bind].
      rewrite K, Hl. unfold destroy_arr. cbn [bind]. eexists. split; [reflexivity|].
      cbn [Nat.eqb]. rewrite seq_resize_cut by lia. apply linked_shrunk; auto. lia.
    - rewrite V. cbn [vsize]. cbn [Nat.eqb].
      destruct (Nat.ltb_spec (S n) (length (s_seq sp))) as [Hlt'|Hge].
      + destruct (cut_ok s sp (S n) false H Hl ltac:(lia) Hb) as (s1 & s' & E1 & F1 & E2 & I2).
        rewrite E1. cbn [bind]. rewrite F1, E2. eexists. split; [reflexivity|].
        rewrite seq_resize_cut by lia. exact I2.
      + destruct (adopt_owned s sp (OpResizeWith (S n) x) (S n) false H Hl Hge ltac:(lia) Hb) as (s1 & s' & E1 & F1 & E2 & I2).
        { split; [|exact Logic.I]. cbn [seq_step]. rewrite seq_resize_length. exact Hb. }
        { reflexivity. }
        rewrite E1. cbn [bind]. rewrite F1, E2. eexists. split; [reflexivity|]. exact I2.
  Qed.
  Lemma linked_assign_ok s sp x : Linv s sp -> s_linked sp = true -> (es * Z.of_nat (length x) <= 2 ^ 31)%Z ->
    exists s', linked_assign e es dflt true s x = Ok s' /\
      Linv s' (mkspec (s_arr sp) (Nat.eqb (length x) 0) x).
  Proof.
    intros H Hl Hb. destruct (linked_resize_ok s sp (length x) dflt H Hl Hb) as (s1 & E1 & I1).
    unfold linked_assign. rewrite E1. cbn [bind]. pose proof I1 as (_ & K1 & _). cbn [s_linked] in K1.
    rewrite K1. destruct (Nat.eqb_spec (length x) 0) as [E0|N0].
    - apply length_zero_iff_nil in E0. subst x. eexists. split; [reflexivity|]. exact I1.
    - apply (owned_ok s1 (mkspec (s_arr sp) false (seq_resize (s_seq sp) (length x) dflt)) (OpAssign x) I1 eq_refl).
      + split; [exact Hb|exact Logic.I].
      + reflexivity.
  Qed.

  Lemma removelast_firstn l : removelast l = firstn (length l - 1) l.
  Proof. rewrite removelast_firstn_len. f_equal. lia. Qed.

  Lemma lop_linked s sp o : Linv s sp -> s_linked sp = true ->
    op_pre es dflt (s_seq sp) o -> op_moves_ok es (s_seq sp) o = true ->
    match o with OpReserve n _ => length (s_seq sp) <= n | _ => True end ->
    exists s', linked_step e es dflt true s o = Ok s' /\
      Linv s' (mkspec (s_arr sp) (negb (needs_storage (s_seq sp) o)) (seq_step dflt (s_seq sp) o)).
  Proof.
    intros H Hl Hp Hm Hr. pose proof H as (A & K & R & I). rewrite Hl in I. destruct I as (V & Hlt & Hs & Hsz).
    pose proof Hp as (Hb & Hq). unfold linked_step. rewrite V. cbn [vsize].
    destruct o; cbn [needs_storage seq_step] in *.
    - (* push_back *)
      rewrite app_length in Hb. cbn [length] in Hb.
      destruct (adopt_owned s sp (OpPushBack x) (length (s_seq sp) + 1) false H Hl ltac:(lia) ltac:(lia) Hb Hp Hm)
        as (s1 & s' & E1 & F1 & E2 & I2).
      rewrite E1. cbn [bind]. rewrite E2. eauto.
    - destruct (s_seq sp) as [|x0 t] eqn:El; [congruence|]. rewrite <- El in *.
      replace (length (s_seq sp)) with (S (length (s_seq sp) - 1)) by (rewrite El; cbn [length]; lia).
      unfold destroy_arr. cbn [bind negb].
      eexists. split; [reflexivity|]. rewrite removelast_firstn. apply linked_shrunk; auto. lia.
    - (* insert 1 *)
      replace (length (s_seq sp) <? ip) with false by lia.
      assert (Hb' : (es * Z.of_nat (length (s_seq sp) + 1) <= 2 ^ 31)%Z).
      { unfold seq_insert in Hb. rewrite !app_length, firstn_length, skipn_length in Hb. cbn [length] in Hb.
        replace (Nat.min ip (length (s_seq sp)) + (1 + (length (s_seq sp) - ip))) with (length (s_seq sp) + 1) in Hb by lia. exact Hb. }
      destruct (adopt_owned s sp (OpInsert ip x) (length (s_seq sp) + 1) false H Hl ltac:(lia) ltac:(lia) Hb' Hp Hm)
        as (s1 & s' & E1 & F1 & E2 & I2).
      rewrite E1. cbn [bind]. rewrite F1, E2. eauto.
    - (* insert n *)
      replace (length (s_seq sp) <? ip) with false by lia.
      assert (Hb' : (es * Z.of_nat (length (s_seq sp) + n) <= 2 ^ 31)%Z).
      { unfold seq_insert in Hb. rewrite !app_length, firstn_length, skipn_length, repeat_length in Hb.
        replace (Nat.min ip (length (s_seq sp)) + (n + (length (s_seq sp) - ip))) with (length (s_seq sp) + n) in Hb by lia. exact Hb. }
      destruct (Nat.eqb_spec (length (s_seq sp) + n) 0) as [E0|N0].
      + unfold adopt, bytes. rewrite E0. replace (es * Z.of_nat 0 <=? 0)%Z with true by lia.
        cbn [bind negb]. rewrite K, Hl. eexists. split; [reflexivity|].
        replace n with 0 by lia. assert (E1 : s_seq sp = []) by (apply length_zero_iff_nil; lia).
        unfold seq_insert. cbn [repeat app]. rewrite firstn_skipn.
        destruct sp as [ar lk sq]. cbn [s_arr s_linked s_seq] in *. subst lk. exact H.
      + destruct (adopt_owned s sp (OpInsertN ip n x) (length (s_seq sp) + n) false H Hl ltac:(lia) ltac:(lia) Hb' Hp Hm)
          as (s1 & s' & E1 & F1 & E2 & I2).
        rewrite E1. cbn [bind]. rewrite F1, E2. eauto.
    - (* insert range *)
      replace (length (s_seq sp) <? ip) with false by lia.
      assert (Hb' : (es * Z.of_nat (length (s_seq sp) + length l) <= 2 ^ 31)%Z).
      { unfold seq_insert in Hb. rewrite !app_length, firstn_length, skipn_length in Hb.
        replace (Nat.min ip (length (s_seq sp)) + (length l + (length (s_seq sp) - ip))) with (length (s_seq sp) + length l) in Hb by lia. exact Hb. }
      destruct (Nat.eqb_spec (length (s_seq sp) + length l) 0) as [E0|N0].
      + unfold adopt, bytes. rewrite E0. replace (es * Z.of_nat 0 <=? 0)%Z with true by lia.
        cbn [bind negb]. rewrite K, Hl. eexists. split; [reflexivity|].
        assert (El : l = []) by (apply length_zero_iff_nil; lia). subst l.
        unfold seq_insert. cbn [app]. rewrite firstn_skipn.
        destruct sp as [ar lk sq]. cbn [s_arr s_linked s_seq] in *. subst lk. exact H.
      + destruct (adopt_owned s sp (OpInsertRange ip l) (length (s_seq sp) + length l) false H Hl ltac:(lia) ltac:(lia) Hb' Hp Hm)
          as (s1 & s' & E1 & F1 & E2 & I2).
        rewrite E1. cbn [bind]. rewrite F1, E2. eauto.
    - (* erase *)
      replace (length (s_seq sp) <? ep + n) with false by lia.
      destruct (Nat.eqb_spec (length (s_seq sp)) 0) as [E0|N0].
      + unfold adopt, bytes. rewrite E0. replace (es * Z.of_nat 0 <=? 0)%Z with true by lia.
        cbn [bind negb]. rewrite K, Hl. unfold destroy_arr. cbn [bind]. eexists. split; [reflexivity|].
        assert (E1 : s_seq sp = []) by (apply length_zero_iff_nil; lia).
        unfold seq_erase. rewrite E1, firstn_nil, skipn_nil.
        destruct sp as [ar lk sq]. cbn [s_arr s_linked s_seq] in *. subst lk sq. exact H.
      + destruct (adopt_owned s sp (OpErase ep n) (length (s_seq sp)) false H Hl ltac:(lia) ltac:(lia) Hsz Hp Hm)
            as (s1 & s' & E1 & F1 & E2 & I2).
          rewrite E1. cbn [bind]. rewrite F1. unfold owned_step in E2.
          destruct (vstep e es dflt (lv s1) (OpErase ep n)) as [v'| | |]; cbn [bind] in E2; try discriminate.
          cbn [bind]. unfold destroy_arr. injection E2 as <-. cbn [negb].
          eexists. split; [reflexivity|]. destruct I2 as (B1 & B2 & B3 & B4).
          cbn [larr lnk lrel lv s_arr s_linked s_seq] in *. unfold Linv. cbn [larr lnk lrel lv s_arr s_linked s_seq].
          auto.
    - destruct (linked_resize_ok s sp n dflt H Hl) as (s' & E & I'); [rewrite seq_resize_length in Hb; exact Hb|].
      rewrite E. rewrite negb_involutive. eauto.
    - destruct (linked_resize_ok s sp n x H Hl) as (s' & E & I'); [rewrite seq_resize_length in Hb; exact Hb|].
      rewrite E. rewrite negb_involutive. eauto.
    - destruct (linked_assign_ok s sp l H Hl Hb) as (s' & E & I'). rewrite E. rewrite negb_involutive. eauto.
    - destruct (linked_assign_ok s sp (repeat x n) H Hl Hb) as (s' & E & I'). rewrite E.
      rewrite repeat_length in I'. rewrite negb_involutive. eauto.
    - eexists. split; [reflexivity|]. cbn [negb]. apply (linked_shrunk s sp 0 H Hl). lia.
    - (* reserve *)
      destruct (Nat.eqb_spec n 0) as [E0|N0].
      + subst n. unfold adopt, bytes. replace (es * Z.of_nat 0 <=? 0)%Z with true by lia.
        eexists. split; [reflexivity|]. cbn [negb].
        destruct sp as [ar lk sq]. cbn [s_arr s_linked s_seq] in *. subst lk. exact H.
      + destruct (adopt_ok s sp (bytes es n) exact H Hl) as (c & Hc & E); [unfold bytes; nia|].
        rewrite E. eexists. split; [reflexivity|]. cbn [negb].
        unfold Linv. cbn [larr lnk lrel lv s_arr s_linked s_seq]. split; [reflexivity|]. split; [reflexivity|]. split; [reflexivity|].
        apply adopted_Vinv. unfold bytes in Hc. nia.
    - eexists. split; [reflexivity|]. cbn [negb].
      destruct sp as [ar lk sq]. cbn [s_arr s_linked s_seq] in *. subst lk. exact H.
    - eexists. split; [reflexivity|]. cbn [negb]. apply (linked_shrunk s sp 0 H Hl). lia.
  Qed.

  Lemma split_at l i : i < length l -> exists a x b, l = a ++ x :: b /\ length a = i.
  Proof.
    intros H. exists (firstn i l). destruct (skipn i l) as [|x b] eqn:E.
    - apply (f_equal (@length T)) in E. rewrite skipn_length in E. cbn in E. lia.
    - exists x, b. rewrite <- E, firstn_skipn, firstn_length. split; [reflexivity|lia].
  Qed.
  Lemma put_app (a : list T) x b i y : length a = i -> put (a ++ x :: b) i y = a ++ y :: b.
  Proof.
    intros <-. unfold put. rewrite firstn_app, Nat.sub_diag, firstn_all. cbn [firstn]. rewrite app_nil_r.
    replace (S (length a)) with (length (a ++ [x])) by (rewrite app_length; cbn; lia).
    change (a ++ x :: b) with (a ++ [x] ++ b). rewrite app_assoc, skipn_app, skipn_all, Nat.sub_diag. reflexivity.
  Qed.
  Lemma put_length l i y : i < length l -> length (put l i y) = length l.
  Proof.
    intros H. destruct (split_at l i H) as (a & x & b & -> & L). rewrite (put_app a x b i y L).
    rewrite !app_length. reflexivity.
  Qed.
  Lemma put_firstn l n i y : i < n -> n <= length l -> put (firstn n l) i y = firstn n (put l i y).
  Proof.
    intros H Hn. destruct (split_at l i ltac:(lia)) as (a & x & b & -> & L).
    rewrite (put_app a x b i y L).
    replace n with (length a + S (n - S (length a))) by lia.
    rewrite !firstn_app_2. cbn [firstn]. apply put_app. exact L.
  Qed.
  Lemma rd_some (a : list T) x b (rest : list (option T)) i : length a = i ->
    rd (map Some (a ++ x :: b) ++ rest) i = Ok (Some x) /\
    (forall y, wr (map Some (a ++ x :: b) ++ rest) i (Some y) = Ok (map Some (a ++ y :: b) ++ rest)).
  Proof.
    intros L. rewrite map_app. cbn [map]. rewrite <- app_assoc. cbn [app]. split.
    - apply rd_app'. rewrite map_length. auto.
    - intros y. rewrite wr_app' by (rewrite map_length; auto).
      rewrite map_app. cbn [map]. rewrite <- app_assoc. reflexivity.
  Qed.

  Lemma set_ok s sp i x : Linv s sp -> i < length (s_seq sp) ->
    exists s', l_step e es dflt true s (LSet i x) = Ok s' /\ Linv s' (spec_step dflt sp (LSet i x)).
  Proof.
    intros (A & K & R & I) Hi. unfold l_step, cells_of, spec_step, Linv. cbn [s_arr s_linked s_seq].
    rewrite K. destruct (s_linked sp).
    - destruct I as (V & Hlt & Hs & Hsz). rewrite V. cbn [vsize].
      replace (length (s_seq sp) <=? i) with false by lia.
      destruct (split_at (s_arr sp) i ltac:(lia)) as (a & z & b & E & L).
      destruct (rd_some a z b [] i L) as (Rd & Wr). rewrite app_nil_r in Rd, Wr.
      rewrite A, E, Rd. cbn [bind]. rewrite (Wr x), app_nil_r. cbn [bind]. eexists. split; [reflexivity|].
      cbn [larr lnk lrel lv]. rewrite (put_app a z b i x L).
      split; [reflexivity|]. split; [reflexivity|]. split; [exact R|].
      rewrite put_length by exact Hi. split; [reflexivity|].
      split; [rewrite E in Hlt; rewrite app_length in *; cbn [length] in *; lia|]. split; [|exact Hsz].
      rewrite Hs at 1. rewrite put_firstn by lia. rewrite E, (put_app a z b i x L). reflexivity.
    - destruct I as ((k & E) & S & Lc & C). rewrite S.
      replace (length (s_seq sp) <=? i) with false by lia.
      destruct (split_at (s_seq sp) i Hi) as (a & z & b & E1 & L).
      destruct (rd_some a z b (repeat None k) i L) as (Rd & Wr).
      rewrite E, E1, Rd. cbn [bind]. rewrite (Wr x). cbn [bind]. eexists. split; [reflexivity|].
      cbn [larr lnk lrel lv]. rewrite (put_app a z b i x L).
      split; [exact A|]. split; [reflexivity|]. split; [exact R|].
      split; [exists k; reflexivity|]. cbn [vsize vcells vcap]. split; [rewrite !app_length; reflexivity|].
      split; [|exact C]. rewrite <- Lc, E, E1. rewrite !app_length, !map_length, !app_length. reflexivity.
  Qed.
  Lemma copy_link_ok s sp : Linv s sp ->
    exists s', l_step e es dflt true s LCopyLink = Ok s' /\ Linv s' (spec_step dflt sp LCopyLink).
  Proof.
    intros H. pose proof H as (A & K & R & I). unfold l_step, spec_step. rewrite K.
    destruct (s_linked sp) eqn:Hl; cbn [andb].
    - destruct I as (V & Hlt & Hs & Hsz). rewrite V. cbn [vsize].
      destruct (Nat.eqb_spec (length (s_seq sp)) 0) as [E0|N0].
      + unfold adopt, bytes. rewrite E0. replace (es * Z.of_nat 0 <=? 0)%Z with true by lia.
        eexists. split; [reflexivity|]. destruct sp as [ar lk sq]. cbn [s_arr s_linked s_seq] in *. subst lk. exact H.
      + destruct (adopt_ok s sp (bytes es (length (s_seq sp))) false H Hl) as (c & Hc & E); [unfold bytes; nia|].
        rewrite E. eexists. split; [reflexivity|].
        unfold Linv. cbn [larr lnk lrel lv s_arr s_linked s_seq]. split; [reflexivity|]. split; [reflexivity|]. split; [reflexivity|].
        apply adopted_Vinv. unfold bytes in Hc. nia.
    - pose proof (Vinv_cap es Hes _ _ I) as Hc. pose proof I as (_ & S & _ & C).
      destruct (reserve_ok e es Hes Hmem (lv s) (s_seq sp) (bytes es (vsize (lv s))) false I) as (v' & mv & E & I' & _).
      { unfold bytes. rewrite S. lia. }
      rewrite E. cbn [bind]. eexists. split; [reflexivity|].
      unfold Linv. cbn [larr lnk lrel lv s_arr s_linked s_seq]. auto.
  Qed.
  Lemma l_step_ok s sp o : Linv s sp -> lop_pre es dflt sp o ->
    exists s', l_step e es dflt true s o = Ok s' /\ Linv s' (spec_step dflt sp o).
  Proof.
    intros H Hp. destruct o as [o|i x|].
    - destruct Hp as (P1 & P2 & P3). pose proof H as (_ & K & _). unfold l_step, spec_step. rewrite K.
      destruct (s_linked sp) eqn:Hl; cbn [andb].
      + apply lop_linked; auto. destruct o; auto.
      + apply owned_ok; auto.
    - apply set_ok; auto.
    - apply copy_link_ok; auto.
  Qed.
  Lemma l_run_ok ops : forall s sp, Linv s sp -> lops_pre es dflt sp ops ->
    exists s', l_run e es dflt true s ops = Ok s' /\ Linv s' (spec_run dflt sp ops).
  Proof.
    induction ops as [|o t IH]; intros s sp H Hp.
    - exists s. split; [reflexivity|exact H].
    - destruct Hp as (Ho & Ht). destruct (l_step_ok s sp o H Ho) as (s1 & E & I1).
      cbn [l_run spec_run]. rewrite E. cbn [bind]. apply IH; auto.
  Qed.
  Lemma link_inv (a : list T) n : n < length a -> (es * Z.of_nat n <= 2 ^ 31)%Z ->
    Linv (l_link a n) (mkspec a true (firstn n a)).
  Proof.
    intros H Hs. unfold Linv, l_link. cbn [larr lnk lrel lv s_arr s_linked s_seq].
    rewrite firstn_length, Nat.min_l by lia.
    split; [reflexivity|]. split; [reflexivity|]. split; [reflexivity|]. auto.
  Qed.
  Lemma l_read_ok l (rest : list (option T)) : forall pre n, n = length l ->
    l_read (map Some (pre ++ l) ++ rest) (length pre) n = Ok l.
  Proof.
    induction l as [|x t IH]; intros pre n ->; [reflexivity|].
    cbn [length l_read]. destruct (rd_some pre x t rest (length pre) eq_refl) as (Rd & _). rewrite Rd. cbn [bind].
    specialize (IH (pre ++ [x]) _ eq_refl). rewrite <- app_assoc in IH. cbn [app] in IH.
    rewrite app_length in IH. cbn [length] in IH. rewrite Nat.add_1_r in IH. rewrite IH. reflexivity.
  Qed.
  Lemma l_contents_ok s sp : Linv s sp -> l_contents s = Ok (s_seq sp).
  Proof.
    intros (A & K & R & I). unfold l_contents, cells_of. rewrite K. destruct (s_linked sp).
    - destruct I as (V & Hlt & Hs & _). rewrite V, A. cbn [vsize].
      rewrite <- (firstn_skipn (length (s_seq sp)) (s_arr sp)), <- Hs, map_app.
      exact (l_read_ok (s_seq sp) _ [] _ eq_refl).
    - destruct I as ((k & E) & S & _). rewrite E, S. exact (l_read_ok (s_seq sp) _ [] _ eq_refl).
  Qed.
  Lemma l_destructor_ok s sp : Linv s sp ->
    exists s', l_destructor e es dflt true s = Ok s' /\ larr s' = map Some (s_arr sp).
  Proof.
    intros H. pose proof H as (A & K & R & I). unfold l_destructor. rewrite K.
    destruct (s_linked sp) eqn:Hl.
    - eexists. split; [reflexivity|]. exact A.
    - destruct (owned_ok s sp OpDeallocate H Hl) as (s' & E & I').
      + split; [cbn; lia|exact Logic.I].
      + reflexivity.
      + exists s'. split; [exact E|]. apply I'.
  Qed.
  Lemma spec_no_set ops : forall sp, Forall no_set ops -> s_arr (spec_run dflt sp ops) = s_arr sp.
  Proof.
    induction ops as [|o t IH]; intros sp H; [reflexivity|]. inversion H as [|? ? H1 H2]; subst.
    cbn [spec_run]. rewrite IH by exact H2. destruct o; cbn in H1; [reflexivity|contradiction|reflexivity].
  Qed.
End P.
