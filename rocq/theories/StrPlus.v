(** * StrPlus: concatenation and to_string as sequences of operations. *)
From Verif Require Import Base UtilModel StoreModel VectorModel VectorSpec MemModel MemSpec MemRun StringModel StringSpec StringProofs StringRun
  StrFmtModel StrFmtSpec StrFmtProofs StrOpsModel.
From Coq Require Import ZArith Lia ZifyBool ZifyNat.
Local Open Scope Z_scope.

Lemma upd_eq {A} (l : list A) : forall i x l', upd l i x = Some l' -> rd l' i = Ok x /\ (forall j, j <> i -> rd l' j = rd l j) /\
  forall y, upd l' i y = upd l i y.
Proof.
  induction l as [|a l IH]; intros [|i] x l' E; cbn in E; try discriminate.
  - injection E as <-. repeat split. intros [|j] H; [congruence|reflexivity].
  - destruct (upd l i x) as [r|] eqn:U; [|discriminate]. injection E as <-. destruct (IH i x r U) as (A1 & A2 & A3).
    split; [exact A1|]. split.
    + intros [|j] H; [reflexivity|]. apply A2. congruence.
    + intros y. cbn. now rewrite A3.
Qed.
(** Constructing string [r] and then changing it is constructing it with the change. *)
Lemma renew_on s r f g s1 s2 : renew s r f = Ok s1 -> on s1 r g = Ok s2 -> renew s r (fun h => ' (h, m) <- f h ;; g h m) = Ok s2.
Proof.
  destruct s as (h & ms). unfold renew, on. intros E1 E2. destruct (rd ms r) as [m| | |] eqn:Er; try discriminate. cbn [bind] in *.
  destruct (deallocate h m) as [(h1 & m1)| | |]; try discriminate. cbn [bind] in *.
  destruct (f h1) as [(h2 & m2)| | |]; try discriminate. cbn [bind] in *.
  unfold wr in *. destruct (upd ms r m2) as [ms'|] eqn:U; try discriminate.
  injection E1 as <-. destruct (upd_eq ms r m2 ms' U) as (A1 & _ & A3). rewrite A1 in E2. cbn [bind] in E2.
  destruct (g h2 m2) as [(h3 & m3)| | |]; try discriminate. cbn [bind] in *. now rewrite A3 in E2.
Qed.
(** The other strings are the same objects as before. *)
Lemma renew_others s r f s1 : renew s r f = Ok s1 -> forall j, j <> r -> rd (snd s1) j = rd (snd s) j.
Proof.
  destruct s as (h & ms). unfold renew, on. intros E1 j Hj. destruct (rd ms r) as [m| | |] eqn:Er; try discriminate. cbn [bind] in *.
  destruct (deallocate h m) as [(h1 & m1)| | |]; try discriminate. cbn [bind] in *.
  destruct (f h1) as [(h2 & m2)| | |]; try discriminate. cbn [bind] in *.
  unfold wr in *. destruct (upd ms r m2) as [ms'|] eqn:U; try discriminate.
  injection E1 as <-. destruct (upd_eq ms r m2 ms' U) as (_ & A2 & _). now apply A2.
Qed.
Lemma renew_ext s r f g : (forall h, f h = g h) -> renew s r f = renew s r g.
Proof.
  intros E. destruct s as (h & ms). unfold renew, on. destruct (rd ms r) as [m| | |]; [|reflexivity..]. cbn [bind].
  destruct (deallocate h m) as [(h1 & m1)| | |]; [|reflexivity..]. cbn [bind]. now rewrite E.
Qed.

Section Plus.
  Variable e : env.
  Hypothesis Henv : good_env e.
  Hypothesis Hmem : enough_memory e.
  Variable h0 : heap.
  Hypothesis Hc : callers h0.
  Variable nul : ptr.
  Hypothesis Hnul : NulBlk nul h0.
  Notation TInv := (StringRun.TInv e h0).

  Lemma get_put_same (ss : list (list (option Z))) r x : (r < length ss)%nat -> get (put ss r x) r = x.
  Proof. intros H. unfold get. apply nth_error_nth. now apply put_same. Qed.
  Lemma get_put_other (ss : list (list (option Z))) r k x : (r < length ss)%nat -> k <> r -> get (put ss r x) k = get ss k.
  Proof.
    intros H N. unfold get. destruct (nth_error ss k) as [y|] eqn:E.
    - rewrite (nth_error_nth (put ss r x) k []  (x:=y)); [symmetry; now apply nth_error_nth|]. now rewrite put_other.
    - apply nth_error_None in E. rewrite !nth_overflow; [reflexivity|exact E|]. now rewrite put_length.
  Qed.
  Lemma with_str_inv s j f s' : with_str s j f = Ok s' -> exists m, rd (snd s) j = Ok m /\ f m = Ok s'.
  Proof. unfold with_str. destruct (rd (snd s) j) as [m| | |]; try discriminate. intros E. exists m. auto. Qed.

  Lemma plus_ok h ms ss r i j : TInv h ms ss -> (r < length ss)%nat -> (i < length ss)%nat -> (j < length ss)%nat -> i <> r -> j <> r ->
    len ss i + len ss j < 2 ^ 31 ->
    exists h' ms', plus_into e nul (h, ms) r i j = Ok (h', ms') /\ TInv h' ms' (put ss r (get ss i ++ get ss j)).
  Proof.
    intros T Hr Hi Hj Ni Nj HL.
    destruct (srun_tinv e Henv Hmem h0 Hc nul Hnul [SCopyOf r i; SAppendStr r j] h ms ss T) as (h' & ms' & E & T' & _).
    { cbn [sops_pre sop_pre sspec_step]. rewrite put_length by exact Hr. split; [lia|]. split; [|exact I]. split; [lia|].
      unfold fits, len in *. rewrite get_put_same by (rewrite put_length; lia). rewrite app_length, get_put_same, get_put_other by auto. lia. }
    { cbn [careful careful_op writes_in_place]. repeat split; intros; exact I. }
    exists h', ms'. cbn [srun sstep sspec_run sspec_step] in E, T'.
    rewrite get_put_same, get_put_other, put_put_same in T' by auto. split; [|exact T'].
    destruct (with_str (h, ms) i (fun x => renew (h, ms) r (fun h => str_copy e h x))) as [s1| | |] eqn:E1; try discriminate. cbn [bind] in E.
    destruct (with_str s1 j (fun x => on s1 r (fun h m => str_append_str e nul h m x))) as [s2| | |] eqn:E2; try discriminate. cbn [bind] in E.
    injection E as ->. apply with_str_inv in E1 as (a & Ra & E1). apply with_str_inv in E2 as (b & Rb & E2).
    rewrite (renew_others _ _ _ _ E1 j Nj) in Rb. unfold plus_into, with_str. rewrite Ra. cbn [bind]. rewrite Rb. cbn [bind].
    exact (renew_on _ _ _ _ _ _ E1 E2).
  Qed.
  Lemma renew_same s r f g s' : renew s r f = Ok s' ->
    (forall h1 x ms', f h1 = Ok x -> s' = (fst x, ms') -> g h1 = Ok x) -> renew s r g = Ok s'.
  Proof.
    destruct s as (h & ms). unfold renew, on. destruct (rd ms r) as [m| | |]; try discriminate. cbn [bind].
    destruct (deallocate h m) as [(h1 & m1)| | |]; try discriminate. cbn [bind]. intros E G.
    destruct (f h1) as [(h2 & m2)| | |] eqn:F; try discriminate. cbn [bind] in E. destruct (wr ms r m2) as [ms'| | |] eqn:W; try discriminate.
    injection E as <-. rewrite (G h1 (h2, m2) ms' F eq_refl). cbn [bind]. now rewrite W.
  Qed.
  Lemma renew_at h ms r f s' h1 m2 : renew (h, ms) r (fun h => Ok (h, m2)) = Ok (h1, s') ->
    forall g, renew (h, ms) r f = Ok g -> f h1 <> UB /\ forall f', f' h1 = f h1 -> renew (h, ms) r f' = Ok g.
  Proof.
    unfold renew, on. destruct (rd ms r) as [m| | |]; try discriminate. cbn [bind].
    destruct (deallocate h m) as [(h2 & m1)| | |]; try discriminate. cbn [bind].
    destruct (wr ms r m2) as [ms'| | |]; try discriminate. intros E. injection E as <- _. intros g Eg. split.
    - intros U. rewrite U in Eg. discriminate.
    - intros f' Ef. now rewrite Ef.
  Qed.
  Lemma cplus_ok h ms ss r p j : TInv h ms ss -> (r < length ss)%nat -> (j < length ss)%nat -> j <> r ->
    can_read_c h0 p -> p <> None -> Z.of_nat (length (c_bytes h0 p)) + len ss j < 2 ^ 31 ->
    exists h' ms', cplus_into e nul (h, ms) r p j = Ok (h', ms') /\ TInv h' ms' (put ss r (c_bytes h0 p ++ get ss j)).
  Proof.
    intros T Hr Hj Nj Hp Hn HL.
    set (cb := c_bytes h0 p) in *. set (n := Z.of_nat (length cb) + len ss j) in *.
    assert (Hr1 : forall x, (r < length (put ss r x))%nat) by (intros x; rewrite put_length; lia).
    destruct (sstep_ok e Henv Hmem h0 Hc nul Hnul h ms ss (SOfC r None) T) as (h1 & ms1 & E1 & T1 & _).
    { cbn [sop_pre]. split; [exact Hr|now left]. }
    { exact I. }
    cbn [sspec_step c_bytes] in T1. cbn [sstep] in E1.
    assert (NL : strlen h1 nul = Ok 0).
    { destruct (tinv_nulblk e h0 _ Hnul _ _ _ T1) as (b & base & -> & N). unfold strlen, rd. rewrite N. reflexivity. }
    (* string r; *)
    assert (F1 : renew (h, ms) r (fun h => Ok (h, str_nil nul)) = Ok (h1, ms1)).
    { apply (renew_same _ _ _ _ _ E1). intros h2 x ms' F Eq. unfold str_of_c in F. destruct (strlen h2 nul) as [y| | |] eqn:Sl; try discriminate.
      cbn [bind] in F. injection F as <-. cbn [fst] in Eq. injection Eq as <- _. rewrite NL in Sl. injection Sl as <-. reflexivity. }
    assert (M1 : nth_error ms1 r = Some (str_nil nul)).
    { unfold renew, on in F1. destruct (rd ms r) as [m| | |]; try discriminate. cbn [bind] in F1.
      destruct (deallocate h m) as [(h2 & m2)| | |]; try discriminate. cbn [bind] in F1. unfold wr in F1.
      destruct (upd ms r (str_nil nul)) as [ms'|] eqn:U; try discriminate. injection F1 as _ <-.
      apply rd_nth_error. now apply (upd_eq _ _ _ _ U). }
    (* r.reserve; r += p; r += s *)
    destruct (srun_tinv e Henv Hmem h0 Hc nul Hnul [SReserve r n; SAppendC r p; SAppendStr r j] h1 ms1 _ T1) as (h' & ms' & E & T' & _).
    { cbn [sops_pre sop_pre sspec_step]. rewrite get_put_same, put_put_same by exact Hr. cbn [app]. fold cb.
      rewrite !get_put_same by (rewrite ?put_length; lia). rewrite !put_length by (rewrite ?put_length; lia).
      unfold fits, len in *. rewrite !get_put_same by (rewrite ?put_length; lia). rewrite get_put_other by auto.
      rewrite app_length. cbn [length]. split; [lia|]. split; [split; [lia|split; [exact Hp|lia]]|]. split; [lia|exact I]. }
    { cbn [careful snd]. split; [|repeat split; intros; exact I]. cbn [careful_op]. intros m Em. rewrite M1 in Em. injection Em as <-.
      destruct Hnul as (b & base & -> & _). discriminate. }
    exists h', ms'. cbn [srun sstep sspec_run sspec_step] in E, T'.
    rewrite !get_put_same, !put_put_same in T' by (rewrite ?put_length; lia). cbn [app] in T'. fold cb in T'.
    rewrite get_put_other in T' by auto. split; [|exact T'].
    destruct (on (h1, ms1) r (fun h m => reserve e 1 h m n false)) as [s2| | |] eqn:E2; try discriminate. cbn [bind] in E.
    destruct (on s2 r (fun h m => str_append_c e nul h m p)) as [s3| | |] eqn:E3; try discriminate. cbn [bind] in E.
    destruct (with_str s3 j (fun x => on s3 r (fun h m => str_append_str e nul h m x))) as [s4| | |] eqn:E4; try discriminate. cbn [bind] in E.
    injection E as ->. apply with_str_inv in E4 as (b & Rb & E4).
    assert (F2 := renew_on _ _ _ _ _ _ F1 E2). assert (F3 := renew_on _ _ _ _ _ _ F2 E3). assert (F4 := renew_on _ _ _ _ _ _ F3 E4).
    pose proof (renew_others _ _ _ _ F1 j Nj) as Rb1. cbn [snd] in Rb1.
    rewrite (renew_others _ _ _ _ F3 j Nj) in Rb. unfold cplus_into, with_str. rewrite Rb. cbn [bind].
    apply (renew_at _ _ _ _ _ _ _ F1 _ F4). unfold str_cplus.
    destruct (cstr_h0 e h0 Hc nul Hnul h1 ms1 _ p T1 Hp) as (b0 & k & pre & post & Eq & N & K & Ec & Sl & Hb). fold cb in Ec, Sl, Hb.
    destruct p as [p'|]; [|congruence]. rewrite Sl. cbn [bind].
    assert (Sb : msize b = len ss j).
    { apply rd_nth_error in Rb. cbn [snd] in Rb. destruct (s_ok _ _ _ _ _ (t_sinv _ _ _ _ _ T) j b Rb) as (l & Im & A).
      destruct (minv_result e h b _ l Im A) as (Sz & _). exact Sz. }
    rewrite Sb. fold n. rewrite StrFmtProofs.u64_id by (unfold n, len in *; lia). cbn [bind].
    destruct (reserve e 1 h1 (str_nil nul) n false) as [(h2 & m2)| | |]; [|reflexivity..]. cbn [bind].
    reflexivity.
  Qed.

  Lemma reserve_cap16 h h' m' : reserve e 0 h mb_nil 16 true = Ok (h', m') -> mcap m' = 16.
  Proof.
    unfold reserve. replace (u64 (16 + 0)) with 16 by reflexivity. change (16 <=? mcap mb_nil) with false. cbn iota.
    change (is_linked mb_nil) with true. cbn iota. change (mptr mb_nil) with (@None (nat * Z)). cbn iota.
    destruct (realloc e h None 16) as [(h1 & nb)| | |]; try discriminate. cbn [bind].
    destruct (link nb (msize mb_nil)) as [m2| | |]; try discriminate. cbn [bind]. intros E. injection E as _ <-. reflexivity.
  Qed.
  Lemma of_fill_cap h h' m' c : str_of_fill e h 15 c = Ok (h', m') -> mcap m' = 16.
  Proof.
    unfold str_of_fill. replace (u64 (15 + 1)) with 16 by reflexivity. unfold resize.
    replace (mcap mb_nil <? u64 (16 + 0)) with true by reflexivity. cbn iota.
    destruct (reserve e 0 h mb_nil 16 true) as [(h1 & m1)| | |] eqn:R; try discriminate. cbn [bind mptr msize mcap].
    destruct (fill_n h1 (mptr m1) 15 c) as [h2| | |]; try discriminate. cbn [bind].
    destruct (store_n h2 (padd (mptr m1) 15) [Some 0]) as [h3| | |]; try discriminate. cbn [bind]. intros E. injection E as _ <-. exact (reserve_cap16 _ _ _ R).
  Qed.
  Lemma renew_get h ms r f h1 ms1 : renew (h, ms) r f = Ok (h1, ms1) -> exists h2 m, f h2 = Ok (h1, m) /\ nth_error ms1 r = Some m.
  Proof.
    unfold renew, on. intros E1. destruct (rd ms r) as [m| | |] eqn:Er; try discriminate. cbn [bind] in *.
    destruct (deallocate h m) as [(h2 & m1)| | |]; try discriminate. cbn [bind] in *.
    destruct (f h2) as [(h3 & m2)| | |] eqn:F; try discriminate. cbn [bind] in *. unfold wr in *. destruct (upd ms r m2) as [ms'|] eqn:U; try discriminate.
    injection E1 as <- <-. exists h2, m2. split; [exact F|]. apply rd_nth_error. now apply (upd_eq _ _ _ _ U).
  Qed.
  Lemma to_string_ok fuel h ms ss r t : TInv h ms ss -> (r < length ss)%nat -> t <> [] -> Z.of_nat (length t) + 1 < 2 ^ 31 ->
    exists h' ms', to_string_into e nul (S (S fuel)) (h, ms) r t = Ok (h', ms') /\ TInv h' ms' (put ss r (map Some t)).
  Proof.
    intros T Hr Ht HL.
    destruct (frun_tinv e Henv Hmem h0 Hc nul Hnul fuel [FStr (SOfFill r 15 0); FFormat r (Some t)] h ms ss T) as (h' & ms' & E & T' & _).
    { cbn [fops_pre fop_pre sop_pre fspec_step sspec_step]. rewrite put_length by exact Hr. unfold fits. repeat split; try assumption; lia. }
    { cbn [fcareful fcareful_op careful_op writes_in_place]. split; [exact I|]. intros (h1 & ms1) E1. cbn [fstep sstep snd] in *.
      split; [|auto]. intros m Em. destruct (renew_get _ _ _ _ _ _ E1) as (h2 & m2 & F & Em2). rewrite Em2 in Em. injection Em as <-.
      rewrite (of_fill_cap _ _ _ _ F). split; [lia|]. intros Q. congruence. }
    exists h', ms'. cbn [frun fstep sstep fspec_run fspec_step sspec_step] in E, T'. rewrite put_put_same in T' by exact Hr. split; [|exact T'].
    destruct (renew (h, ms) r (fun h => str_of_fill e h 15 0)) as [s1| | |] eqn:E1; try discriminate. cbn [bind] in E.
    destruct (on s1 r _) as [s2| | |] eqn:E2; try discriminate. cbn [bind] in E. injection E as ->.
    exact (renew_on _ _ _ _ _ _ E1 E2).
  Qed.
End Plus.
