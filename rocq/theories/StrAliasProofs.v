(** * StrAliasProofs: strings and the arrays they were made from. *)
From Verif Require Import Base UtilModel UtilProofs StoreModel StoreProofs VectorSpec MemModel MemSpec MemProofs MemRun
  StringModel StringSpec StringProofs StringRun StringFindProofs.
From Coq Require Import ZArith ZifyBool ZifyNat.
Local Open Scope Z_scope.

Lemma load_same h h' b o n : nth_error h' b = nth_error h b -> load_n h' (Some (b, o)) n = load_n h (Some (b, o)) n.
Proof. intros E. unfold load_n, rd. rewrite E. reflexivity. Qed.

Lemma own_unchanged e h0 nul k ops h ms i m h' : good_env e -> enough_memory e -> callers h0 -> NulBlk nul h0 ->
  sops_pre h0 (repeat [] k) ops -> careful e nul h0 (repeat [] k) (h0, repeat (str_nil nul) k) ops ->
  srun e nul (h0, repeat (str_nil nul) k) ops = Ok (h, ms) -> nth_error ms i = Some m -> is_linked m = false ->
  skipn (length h0) h' = skipn (length h0) h -> (length h0 <= length h')%nat -> mb_bytes h' m = mb_bytes h m.
Proof.
  intros He Hm Hc Hn P Ca E Em L Sk Lh.
  destruct (srun_tinv e He Hm h0 Hc nul Hn ops _ _ _ (tinv_init e h0 nul Hn k) P Ca) as (h1 & ms1 & E1 & T & _).
  rewrite E in E1. injection E1 as <- <-. destruct T as [S _ _]. destruct (s_ok _ _ _ _ _ S i m Em) as (l & (_ & [(C & _)|(C & b & r & Pm & Nb & _)]) & _).
  - unfold is_linked in L. lia.
  - unfold mb_bytes. rewrite Pm. apply load_same.
    assert (Hb : (length h0 <= b)%nat).
    { destruct (Nat.le_gt_cases (length h0) b) as [Q|Q]; [exact Q|]. exfalso.
      rewrite (s_frame _ _ _ _ _ S b Q) in Nb. unfold callers in Hc. rewrite Forall_forall in Hc.
      apply nth_error_In in Nb. destruct (Hc _ Nb) as [D|D]; cbn in D; discriminate. }
    replace b with (length h0 + (b - length h0))%nat by lia.
    assert (Q : forall (hh : heap) j, (length h0 <= length hh)%nat -> nth_error hh (length h0 + j) = nth_error (skipn (length h0) hh) j).
    { intros hh j Hl. rewrite <- (firstn_skipn (length h0) hh) at 1. rewrite nth_error_app2 by (rewrite firstn_length; lia).
      f_equal. rewrite firstn_length. lia. }
    rewrite !Q, Sk; [reflexivity| |exact Lh]. exact (s_h0 _ _ _ _ _ S).
Qed.

Section Text.
  Variables (nul : ptr) (h : heap) (b : nat) (pre post : list (option Z)) (l : list Z) (base : Z).
  Hypothesis Hb : nth_error h b = Some (mkblk (pre ++ map Some l ++ Some 0 :: post) base Foreign).
  Hypothesis Hl : Forall (fun c => c <> 0) l.
  Let p : ptr := Some (b, Z.of_nat (length pre)).
  Let m : mb := mkmb p (Z.of_nat (length l)) 0.

  Lemma text_of_c : str_of_c nul h p = Ok (h, m).
  Proof.
    unfold str_of_c, p. unfold strlen. unfold rd. rewrite Hb. cbn [bind bkind bcells readable andb].
    assert (R : in_range (Z.of_nat (length pre)) 0 (pre ++ map Some l ++ Some 0 :: post) = true).
    { unfold in_range. rewrite app_length. lia. }
    rewrite R. rewrite Nat2Z.id. replace (skipn (length pre) (pre ++ map Some l ++ Some 0 :: post)) with (map Some l ++ Some 0 :: post).
    - rewrite (proj1 (cstrlen_ok l post Hl)). reflexivity.
    - rewrite skipn_app, skipn_all, Nat.sub_diag. reflexivity.
  Qed.
  Lemma text_at (hh : heap) (q : list Z) bs : nth_error hh b = Some (mkblk (pre ++ map Some q ++ Some 0 :: post) bs Foreign) ->
    length q = length l -> mb_bytes hh m = Ok (map Some q).
  Proof.
    intros E Hq. unfold mb_bytes, m, p. cbn [mptr msize]. rewrite <- Hq. unfold load_n.
    destruct q as [|x q]; [reflexivity|]. replace (Z.of_nat (length (x :: q)) =? 0) with false by (cbn [length]; lia).
    unfold rd. rewrite E. cbn [bind bkind bcells readable andb].
    assert (R : in_range (Z.of_nat (length pre)) (Z.of_nat (length (x :: q))) (pre ++ map Some (x :: q) ++ Some 0 :: post) = true).
    { unfold in_range. rewrite !app_length, map_length. lia. }
    rewrite R. f_equal. rewrite Nat2Z.id. replace (Z.to_nat (Z.of_nat (length pre) + Z.of_nat (length (x :: q)))) with (length pre + length (map Some (x :: q)))%nat by (rewrite map_length; lia).
    apply slice_app.
  Qed.
  Lemma text_poke (k : nat) c : (k < length l)%nat -> exists h', store_n h (padd p (Z.of_nat k)) [Some c] = Ok h' /\
    nth_error h' b = Some (mkblk (pre ++ map Some (firstn k l ++ c :: skipn (S k) l) ++ Some 0 :: post) base Foreign).
  Proof.
    intros Hk. unfold store_n, p, padd, rd. rewrite Hb. cbn [bind bkind bcells writable andb bbase].
    assert (R : in_range (Z.of_nat (length pre) + Z.of_nat k) (Z.of_nat (length [Some c])) (pre ++ map Some l ++ Some 0 :: post) = true).
    { unfold in_range. rewrite !app_length, map_length. cbn [length]. lia. }
    rewrite R. destruct (nth_error l k) as [y|] eqn:Ey; [|apply nth_error_None in Ey; lia].
    apply nth_error_split in Ey. destruct Ey as (a & t & El & <-).
    assert (F : firstn (length a) l = a) by (rewrite El, firstn_app, firstn_all, Nat.sub_diag, app_nil_r; reflexivity).
    assert (Sk : skipn (S (length a)) l = t).
    { rewrite El. replace (a ++ y :: t) with ((a ++ [y]) ++ t) by (rewrite <- app_assoc; reflexivity).
      replace (S (length a)) with (length (a ++ [y])) by (rewrite app_length; cbn; lia). rewrite skipn_app, skipn_all, Nat.sub_diag. reflexivity. }
    rewrite F, Sk.
    replace (Z.to_nat (Z.of_nat (length pre) + Z.of_nat (length a))) with (length (pre ++ map Some a)) by (rewrite app_length, map_length; lia).
    assert (Ec : pre ++ map Some l ++ Some 0 :: post = (pre ++ map Some a) ++ Some y :: (map Some t ++ Some 0 :: post)).
    { rewrite El, map_app, <- !app_assoc. reflexivity. }
    rewrite Ec. rewrite firstn_app, firstn_all, Nat.sub_diag. cbn [firstn]. rewrite app_nil_r.
    replace (skipn (length (pre ++ map Some a) + length [Some c]) ((pre ++ map Some a) ++ Some y :: map Some t ++ Some 0 :: post)) with (map Some t ++ Some 0 :: post).
    - destruct (wr_hset h b _ (mkblk ((pre ++ map Some a) ++ [Some c] ++ map Some t ++ Some 0 :: post) base Foreign) Hb) as (h' & Ew & En).
      exists h'. split; [exact Ew|]. rewrite (proj1 (proj2 En)). f_equal. f_equal. rewrite map_app. cbn [map]. rewrite <- !app_assoc. reflexivity.
    - cbn [length]. rewrite skipn_app. rewrite skipn_all2 by lia.
      replace (length (pre ++ map Some a) + 1 - length (pre ++ map Some a))%nat with 1%nat by lia. reflexivity.
  Qed.
End Text.

(** *** Operations after which the string has its own storage *)
Section Owns.
  Variable e : env.
  Variable nul : ptr.
  Lemma reserve_owns h m n h' m' : 0 < u64 (n + 1) -> reserve e 1 h m n true = Ok (h', m') -> u64 (n + 1) <= mcap m' .
  Proof.
    intros Hn E. unfold reserve in E. destruct (u64 (n + 1) <=? mcap m) eqn:C; [injection E as <- <-; lia|].
    match type of E with bind ?q _ = _ => destruct q as [[h1 nb]| | |] end; cbn [bind] in E; try discriminate.
    match type of E with bind ?q _ = _ => destruct q as [h2| | |] end; cbn [bind] in E; try discriminate.
    destruct (link nb (msize m)) as [m2| | |]; cbn [bind] in E; try discriminate. injection E as <- <-. cbn [mcap]. lia.
  Qed.
  Lemma str_resize_owns h m n h' m' : 0 < n -> n < 2 ^ 31 -> str_resize e nul h m n = Ok (h', m') -> is_linked m' = false.
  Proof.
    intros Hn Hm E. unfold str_resize in E. replace (n =? 0) with false in E by lia. cbn [andb] in E.
    assert (U : u64 (n + 1) = n + 1) by (apply u64_id; lia).
    unfold resize in E. destruct (mcap m <? u64 (n + 1)) eqn:C.
    - destruct (reserve e 1 h m n true) as [[h1 m1]| | |] eqn:R; cbn [bind] in E; try discriminate.
      apply reserve_owns in R; [|lia]. destruct (store_n _ _ _) as [h2| | |]; cbn [bind] in E; try discriminate.
      injection E as <- <-. unfold is_linked. cbn [mcap]. lia.
    - cbn [bind] in E. destruct (store_n _ _ _) as [h2| | |]; cbn [bind] in E; try discriminate.
      injection E as <- <-. unfold is_linked. cbn [mcap]. lia.
  Qed.
  Lemma str_assign_owns h m p n h' m' : 0 < n -> n < 2 ^ 31 -> str_assign e nul h m p n = Ok (h', m') -> is_linked m' = false.
  Proof.
    intros Hn Hm E. unfold str_assign in E. destruct (str_resize e nul h m n) as [[h1 m1]| | |] eqn:R; cbn [bind] in E; try discriminate.
    destruct (copy_n _ _ _ _) as [h2| | |]; cbn [bind] in E; try discriminate. injection E as <- <-. exact (str_resize_owns _ _ _ _ _ Hn Hm R).
  Qed.
  Lemma str_append_owns h m p n h' m' : 0 <= msize m -> 0 < n -> msize m + n < 2 ^ 31 -> str_append e nul h m p n = Ok (h', m') -> is_linked m' = false.
  Proof.
    intros H0 Hn Hm E. unfold str_append in E. rewrite (u64_id (msize m + n)) in E by lia.
    destruct (str_resize e nul h m (msize m + n)) as [[h1 m1]| | |] eqn:R; cbn [bind] in E; try discriminate.
    destruct (copy_n _ _ _ _) as [h2| | |]; cbn [bind] in E; try discriminate. injection E as <- <-.
    apply (str_resize_owns h m (msize m + n) h1 m1); [lia|lia|exact R].
  Qed.
End Owns.
