(** * Properties C240, C241: copies and swaps of text output streams. *)
From Verif Require Import Base UtilModel UtilProofs StoreModel StoreProofs VectorSpec MemModel MemSpec MemProofs StringModel StringProofs StreamModel FileModel VectorFacts
  OStrModel OStrSpec OStrProofs OStrRun OStrFile OStrExt OSeekModel OSeekSpec P_Text P_OSeek OCopyModel.
From Coq Require Import List ZArith ZifyBool ZifyNat Lia.
Import ListNotations.
Local Open Scope Z_scope.

(** Copying a string changes no memory there was. *)
Lemma str_copy_keeps e h m h' m' b : str_copy e h m = Ok (h', m') -> (b < length h)%nat -> nth_error h' b = nth_error h b.
Proof.
  unfold str_copy. destruct (is_linked m) eqn:L.
  - unfold resize. change (u64 (0 + 0)) with 0. cbn [mcap mb_nil Z.ltb Z.compare bind]. intros E _. now injection E as <- _.
  - intros E Hb. destruct (resize e 0 h mb_nil (u64 (msize m + 1)) true) as [[h1 m1]| | |] eqn:R; try discriminate E. cbn [bind] in E.
    assert (h1 = h /\ mptr m1 = None \/ exists k, h1 = h ++ [k] /\ mptr m1 = Some (length h, 0)) as C.
    { unfold resize in R. destruct (mcap mb_nil <? u64 (u64 (msize m + 1) + 0)).
      - unfold reserve in R. destruct (_ <=? _); [injection R as <- <-; left; split; reflexivity|].
        cbn [is_linked mcap mb_nil Z.eqb mptr msize realloc] in R. destruct (malloc_ok e _); [|discriminate R]. cbn [push_blk bind] in R.
        match type of R with context [link ?p ?n] => destruct (link p n) as [q| | |] eqn:K end; try discriminate R. cbn [bind] in R. injection R as <- <-.
        right. eexists. split; [reflexivity|]. cbn [mptr]. unfold link in K. cbn in K. now injection K as <-.
      - injection R as <- <-. left. split; reflexivity. }
    unfold copy_n in E. destruct (load_n h1 (mptr m) (msize m1)) as [l| | |]; try discriminate E. cbn [bind] in E.
    destruct (store_n h1 (mptr m1) l) as [h2| | |] eqn:St; try discriminate E. cbn [bind] in E. injection E as <- _.
    unfold store_n in St. destruct l as [|c l].
    { injection St as <-. destruct C as [(-> & _)|(k & -> & _)]; [reflexivity|]. apply nth_error_app1, Hb. }
    destruct C as [(-> & Q)|(k & -> & Q)]; rewrite Q in St; [discriminate St|].
    unfold rd in St. destruct (nth_error (h ++ [k]) (length h)) as [k1|]; try discriminate St. cbn [bind] in St.
    destruct (_ && _); [|discriminate St]. unfold wr in St. destruct (upd _ _ _) as [u|] eqn:U; try discriminate St. injection St as <-.
    rewrite (upd_nth_error _ _ _ _ b U). destruct (Nat.eqb_spec b (length h)) as [->|]; [lia|]. apply nth_error_app1, Hb.
Qed.

Lemma now_in_inv e nul s w h' : OInv e nul s w -> (forall b, (b < length (s_heap s))%nat -> nth_error h' b = nth_error (s_heap s) b) ->
  OInv e nul (now_in h' s) w.
Proof.
  intros (Hn & P & St & B) K.
  assert (N : forall b k, nth_error (s_heap s) b = Some k -> nth_error h' b = Some k).
  { intros b k E. rewrite K; [exact E|]. apply nth_error_Some. congruence. }
  split; [|split; [exact P|]; split; [exact St|]].
  - destruct Hn as (b & base & Eb & Nb). exists b, base. split; [exact Eb|]. apply N, Nb.
  - destruct B as [B|(b & cells & Pm & Ho & R)]; [left; exact B|]. right. exists b, cells. split; [exact Pm|]. split; [apply N, Ho|exact R].
Qed.
Lemma write_one x s : 1 <= s_remaining s ->
  s_write [x] s = match store_n (s_heap s) (padd (s_vptr s) (s_pos s)) [Some x] with
                  | Ok h => Ok (sput_pos (s_pos s + 1) (sput_mem h (s_buf s) s), Val tt)
                  | _ => UB end.
Proof. intros H. unfold s_write, iobind, s_verify. change (Z.of_nat (length [x])) with 1. rewrite (proj2 (Z.leb_le 1 _) H). reflexivity. Qed.

(** ** C240: a copy of a stream is another stream: false. *)
(** After any history that leaves room, a character written to the copy lands
    in the memory of the original: it is what str () of the original shows once
    the original's position is moved over it. *)
Theorem C240_writes_refuted e nul h f ops s0 s r c x (w := final_text [] ops) :
  has_nul h nul -> oss_default e nul h f = Ok s0 -> enough_memory e -> within [] ops -> xrun e nul ops s0 = Ok (s, r) ->
  1 <= s_remaining s -> oss_copy e s = Ok c ->
  exists c' s1 s2, oss_step e nul (OPut x) c = Ok (c', Val tt) /\
    s_seekp_dir 1 Cur (now_in (s_heap c') s) = Ok (s1, Val tt) /\ oss_str e nul s1 = Ok (s2, Val (map Some (w ++ [x]))).
Proof.
  intros Hn E Hm Hw R Hr Ec. destruct (oss_default_ok e nul h f Hn) as (s0' & E0 & I0 & _). rewrite E in E0. injection E0 as <-.
  destruct (xrun_inv e nul Hm ops s0 [] I0 Hw) as (s' & R' & I). rewrite R in R'. injection R' as <- _.
  unfold oss_copy in Ec. destruct (str_copy e (s_heap s) (s_buf s)) as [[h' b']| | |] eqn:Cp; try discriminate Ec. cbn [bind] in Ec. injection Ec as <-.
  pose proof (now_in_inv e nul s _ h' I (fun b => str_copy_keeps e _ _ _ _ b Cp)) as I1.
  pose proof (OInv_bounds _ _ _ _ I) as (B1 & B2 & B3 & _). pose proof I as (_ & P & _).
  destruct (s_write_ok e nul (now_in h' s) _ [x] I1 Hr) as (s2 & Es & I2 & _).
  rewrite (write_one x (now_in h' s) Hr) in Es. cbn [now_in sput_mem s_heap s_vptr s_pos s_buf] in Es.
  destruct (store_n h' (padd (s_vptr s) (s_pos s)) [Some x]) as [h2| | |] eqn:Sn; try discriminate Es. injection Es as Es.
  eexists. exists s2. destruct (oss_flush_ok e nul s2 _ I2) as (s3 & F & _ & _ & _ & L). exists s3. split; [|split].
  - cbn [oss_step]. unfold os_put.
    match goal with |- context [mko h' b' ?a ?b ?c ?d ?g ?k] => set (c0 := mko h' b' a b c d g k) end.
    assert (Hc : 1 <= s_remaining c0) by exact Hr. rewrite (proj2 (Z.leb_le 1 _) Hc). rewrite (write_one x c0 Hc). cbn [c0 s_heap s_vptr s_pos s_buf]. rewrite Sn. reflexivity.
  - unfold s_seekp_dir, s_seekp. cbn [now_in sput_mem sput_pos s_heap s_vsize s_pos].
    rewrite u64_small by lia. destruct (Z.ltb_spec (s_vsize s) (s_pos s + 1)) as [Q|_]; [exfalso; clear - Q Hr B3; lia|]. rewrite <- Es. reflexivity.
  - unfold oss_str, iobind. rewrite F. cbn [bind]. rewrite L. reflexivity.
Qed.
Print Assumptions C240_writes_refuted.
(** And once the original is gone, there is no memory to write to. *)
Theorem C240_gone_refuted e nul h f ops s0 s r c h' x :
  has_nul h nul -> oss_default e nul h f = Ok s0 -> enough_memory e -> within [] ops -> xrun e nul ops s0 = Ok (s, r) ->
  1 <= s_remaining s -> oss_copy e s = Ok c -> oss_destroy (now_in (s_heap c) s) = Ok h' ->
  oss_step e nul (OPut x) (now_in h' c) = UB.
Proof.
  intros Hn E Hm Hw R Hr Ec Ed. destruct (oss_default_ok e nul h f Hn) as (s0' & E0 & I0 & _). rewrite E in E0. injection E0 as <-.
  destruct (xrun_inv e nul Hm ops s0 [] I0 Hw) as (s' & R' & I). rewrite R in R'. injection R' as <- _.
  unfold oss_copy in Ec. destruct (str_copy e (s_heap s) (s_buf s)) as [[h1 b']| | |] eqn:Cp; try discriminate Ec. cbn [bind] in Ec. injection Ec as <-.
  pose proof (now_in_inv e nul s _ h1 I (fun b => str_copy_keeps e _ _ _ _ b Cp)) as I1.
  pose proof (OInv_bounds _ _ _ _ I) as (B1 & B2 & B3 & _). destruct I1 as (_ & P & _ & B). cbn [now_in sput_mem s_heap s_buf] in Ed.
  destruct B as [(_ & _ & _ & V & _)|(b & cells & Pm & Ho & C & Cb & F & V & Vp)]; cbn [now_in sput_mem s_heap s_buf s_vsize s_pos s_vptr] in *; [lia|].
  destruct Vp as [Vp|Vp]; [|lia].
  unfold oss_destroy in Ed. cbn [now_in sput_mem s_heap s_buf] in Ed. unfold is_linked in Ed. rewrite (proj2 (Z.eqb_neq (mcap (s_buf s)) 0)) in Ed by lia. rewrite Pm in Ed. unfold free, rd in Ed. unfold Own in Ho. rewrite Ho in Ed.
  cbn [bind bkind bcells bbase] in Ed. change (0 =? 0) with true in Ed. cbn iota in Ed. unfold wr in Ed.
  destruct (upd h1 b _) as [u|] eqn:U; [|discriminate Ed]. injection Ed as <-.
  cbn [oss_step]. unfold os_put.
  match goal with |- context [s_write [x] ?q] => set (c0 := q) end.
  assert (Hc : 1 <= s_remaining c0) by exact Hr. rewrite (proj2 (Z.leb_le 1 _) Hc). rewrite (write_one x c0 Hc).
  cbn [c0 now_in sput_mem s_heap s_vptr s_pos s_buf]. rewrite Vp. unfold store_n. cbn [padd]. unfold rd. rewrite (upd_nth_error _ _ _ _ b U), Nat.eqb_refl. reflexivity.
Qed.
Print Assumptions C240_gone_refuted.
(** Not even the text is always copied: "hello", back to 2, str (), then "abc":
    the text is "heabc", the copy's is "hea" and two bytes of garbage. *)
Theorem C240_text_refuted : exists s s1 r1 s2 c r2,
  oss_default env0 lnul lit (mkf 0 0 [] [] []) = Ok s /\
  xrun env0 lnul [XOut (OWrite [104; 101; 108; 108; 111]); XSeek 2 Beg; XStr; XOut (OWrite [97; 98; 99])] s = Ok (s1, r1) /\
  oss_copy env0 s1 = Ok c /\ oss_str env0 lnul s1 = Ok (s2, Val (map Some [104; 101; 97; 98; 99])) /\
  oss_str env0 lnul c = Ok (r2, Val [Some 104; Some 101; Some 97; None; None]).
Proof.
  eexists _, _, _, _, _, _. split; [reflexivity|]. split; [vm_compute; reflexivity|]. split; [vm_compute; reflexivity|].
  split; vm_compute; reflexivity.
Qed.
Print Assumptions C240_text_refuted.
(** Not vacuous: after a number there is room for one character. *)
Example C240_example : exists s s1 c c' h, oss_default env0 lnul lit (mkf 0 0 [] [] []) = Ok s /\
  within [] [XOut (OFormat [49])] /\ xrun env0 lnul [XOut (OFormat [49])] s = Ok (s1, [Nothing]) /\ s_remaining s1 = 1 /\
  oss_copy env0 s1 = Ok c /\ oss_destroy (now_in (s_heap c) s1) = Ok h /\ oss_step env0 lnul (OPut 120) c = Ok (c', Val tt).
Proof.
  eexists _, _, _, _, _. split; [reflexivity|]. split; [cbn; lia|]. split; [vm_compute; reflexivity|]. split; [reflexivity|].
  split; [vm_compute; reflexivity|]. split; [vm_compute; reflexivity|]. vm_compute; reflexivity.
Qed.

(** ** C241: swap exchanges two streams: false. *)
(** The first stream then has as much of its own text as the other had written. *)
Theorem C241_swap_refuted e nul h f ops s0 s r s2 n (w := final_text [] ops) :
  has_nul h nul -> oss_default e nul h f = Ok s0 -> enough_memory e -> within [] ops -> xrun e nul ops s0 = Ok (s, r) ->
  s_pos s2 = Z.of_nat n -> (n <= length w)%nat ->
  exists s', oss_str e nul (fst (oss_swap s s2)) = Ok (s', Val (map Some (firstn n w))).
Proof.
  intros Hn E Hm Hw R Hp Hl. destruct (oss_default_ok e nul h f Hn) as (s0' & E0 & I0 & _). rewrite E in E0. injection E0 as <-.
  destruct (xrun_inv e nul Hm ops s0 [] I0 Hw) as (s' & R' & I). rewrite R in R'. injection R' as <- _. fold w in I.
  pose proof (OInv_bounds _ _ _ _ I) as (B1 & B2 & _).
  destruct (seek_inv e nul s w (Z.of_nat n) Beg I ltac:(discriminate) ltac:(cbn [target]; lia)) as (s1 & Es & I1). cbn [target] in I1. rewrite Nat2Z.id in I1.
  unfold s_seekp_dir, s_seekp in Es. destruct (_ <? _); [unfold s_overrun in Es; cbv zeta in Es; destruct (_ =? 0); [injection Es as Es|discriminate Es]|injection Es as Es].
  - exfalso. destruct I1 as (_ & _ & St & _). rewrite <- Es in St. cbn [sput_state s_state] in St. apply Z.lor_eq_0_iff in St. destruct St as (_ & St).
    unfold overrun_bits in St. destruct (_ =? 0); discriminate St.
  - destruct (oss_flush_ok e nul s1 _ I1) as (s3 & F & _ & _ & _ & L). unfold oss_str, iobind, oss_flush, on_buf in *. cbn [oss_swap fst s_heap s_buf s_pos]. rewrite Hp.
    rewrite <- Es in F. cbn [sput_pos s_heap s_buf s_pos] in F. rewrite !u64_small in F by (rewrite ?u64_small; lia).
    destruct (str_resize e nul (s_heap s) (s_buf s) (Z.of_nat n)) as [[hh bb]| | |]; try discriminate F. cbn [bind]. injection F as F.
    cbn [sput_mem s_heap s_buf]. rewrite <- F in L. cbn [sput_mem s_heap s_buf] in L. rewrite L. eexists. reflexivity.
Qed.
Print Assumptions C241_swap_refuted.
(** "abc" and "x" swapped: the first shows "a", the second an "x" and garbage,
    and what is written to the first goes where the second wrote. *)
Theorem C241_both_refuted : exists s s1 t t1,
  oss_default env0 lnul lit (mkf 0 0 [] [] []) = Ok s /\ xrun env0 lnul [XOut (OWrite [97; 98; 99])] s = Ok (s1, [Nothing]) /\
  oss_default env0 lnul (s_heap s1) (mkf 0 0 [] [] []) = Ok t /\ xrun env0 lnul [XOut (OWrite [120])] t = Ok (t1, [Nothing]) /\
  (exists q, oss_str env0 lnul (fst (oss_swap (now_in (s_heap t1) s1) t1)) = Ok (q, Val [Some 97])) /\
  (exists q l, oss_str env0 lnul (snd (oss_swap (now_in (s_heap t1) s1) t1)) = Ok (q, Val (Some 120 :: l)) /\ l <> map Some [98; 99]).
Proof.
  eexists _, _, _, _. split; [reflexivity|]. split; [vm_compute; reflexivity|]. split; [vm_compute; reflexivity|]. split; [vm_compute; reflexivity|].
  split; [eexists; vm_compute; reflexivity|]. eexists _, _. split; [vm_compute; reflexivity|]. discriminate.
Qed.
Print Assumptions C241_both_refuted.

(** ** C243: a stream returned from a function goes on where it was, also after
    the one it was moved from is gone. *)
Theorem C243_moved e nul h f ops1 ops2 s0 s r (w := final_text [] ops1) :
  has_nul h nul -> oss_default e nul h f = Ok s0 -> enough_memory e -> within [] ops1 -> xrun e nul ops1 s0 = Ok (s, r) -> within w ops2 ->
  exists h' s2 s3, oss_destroy (snd (oss_move s)) = Ok h' /\
    xrun e nul ops2 (now_in h' (fst (oss_move s))) = Ok (s2, shows w ops2) /\
    oss_str e nul s2 = Ok (s3, Val (map Some (final_text w ops2))).
Proof.
  intros Hn E Hm W1 R W2. destruct (oss_default_ok e nul h f Hn) as (s0' & E0 & I0 & _). rewrite E in E0. injection E0 as <-.
  destruct (xrun_inv e nul Hm ops1 s0 [] I0 W1) as (s' & R' & I). rewrite R in R'. injection R' as <- _. fold w in I.
  pose proof (now_in_inv e nul s w (s_heap s) I (fun b _ => eq_refl)) as I1.
  destruct (xrun_inv e nul Hm ops2 (now_in (s_heap s) s) w I1 W2) as (s2 & R2 & I2).
  destruct (oss_flush_ok e nul s2 _ I2) as (s3 & F & _ & _ & _ & L).
  exists (s_heap s), s2, s3. split; [reflexivity|]. split; [exact R2|]. unfold oss_str, iobind. rewrite F. cbn [bind]. rewrite L. reflexivity.
Qed.
Print Assumptions C243_moved.
Example C243_example : exists s s1, oss_default env0 lnul lit (mkf 0 0 [] [] []) = Ok s /\ xrun env0 lnul ops234 s = Ok (s1, shows [] ops234) /\
  final_text [] ops234 = [104; 101; 76; 80; 55; 55] /\ within (final_text [] ops234) [XOut (OPut 33); XStr] /\
  exists s2, xrun env0 lnul [XOut (OPut 33); XStr] (fst (oss_move s1)) = Ok (s2, [Nothing; Text (map Some [104; 101; 76; 80; 55; 55; 33])]).
Proof.
  eexists _, _. split; [reflexivity|]. split; [vm_compute; reflexivity|]. split; [reflexivity|]. split; [split; [vm_compute; discriminate|split; exact Logic.I]|].
  eexists. vm_compute. reflexivity.
Qed.
(** But the one it was moved from still has its view of the memory: what is
    written to that one, with room left, lands in the new one. *)
Theorem C244_moved_from_refuted e nul h f ops s0 s r x (w := final_text [] ops) :
  has_nul h nul -> oss_default e nul h f = Ok s0 -> enough_memory e -> within [] ops -> xrun e nul ops s0 = Ok (s, r) ->
  1 <= s_remaining s ->
  exists o s1 s2, oss_step e nul (OPut x) (snd (oss_move s)) = Ok (o, Val tt) /\
    s_seekp_dir 1 Cur (now_in (s_heap o) (fst (oss_move s))) = Ok (s1, Val tt) /\ oss_str e nul s1 = Ok (s2, Val (map Some (w ++ [x]))).
Proof.
  intros Hn E Hm Hw R Hr. destruct (oss_default_ok e nul h f Hn) as (s0' & E0 & I0 & _). rewrite E in E0. injection E0 as <-.
  destruct (xrun_inv e nul Hm ops s0 [] I0 Hw) as (s' & R' & I). rewrite R in R'. injection R' as <- _. fold w in I.
  pose proof (OInv_bounds _ _ _ _ I) as (B1 & B2 & B3 & _). pose proof I as (_ & P & _).
  destruct (s_write_ok e nul s w [x] I Hr) as (s2 & Es & I2 & _). rewrite (write_one x s Hr) in Es.
  destruct (store_n (s_heap s) (padd (s_vptr s) (s_pos s)) [Some x]) as [h2| | |] eqn:Sn; try discriminate Es. injection Es as Es.
  eexists. exists s2. destruct (oss_flush_ok e nul s2 _ I2) as (s3 & F & _ & _ & _ & L). exists s3. split; [|split].
  - cbn [oss_step oss_move snd]. unfold os_put.
    match goal with |- context [s_write [x] ?q] => set (c0 := q) end.
    assert (Hc : 1 <= s_remaining c0) by exact Hr. rewrite (proj2 (Z.leb_le 1 _) Hc). rewrite (write_one x c0 Hc). cbn [c0 s_heap s_vptr s_pos s_buf]. rewrite Sn. reflexivity.
  - unfold s_seekp_dir, s_seekp. cbn [oss_move fst now_in sput_mem sput_pos s_heap s_vsize s_pos].
    rewrite u64_small by lia. destruct (Z.ltb_spec (s_vsize s) (s_pos s + 1)) as [Q|_]; [exfalso; clear - Q Hr B3; lia|]. rewrite <- Es. reflexivity.
  - unfold oss_str, iobind. rewrite F. cbn [bind]. rewrite L. reflexivity.
Qed.
Print Assumptions C244_moved_from_refuted.
Example C244_example : exists s s1, oss_default env0 lnul lit (mkf 0 0 [] [] []) = Ok s /\ xrun env0 lnul [XOut (OFormat [49])] s = Ok (s1, [Nothing]) /\ 1 <= s_remaining s1.
Proof. eexists _, _. split; [reflexivity|]. split; [vm_compute; reflexivity|]. vm_compute. discriminate. Qed.

(** ** C245: each byte written to an ofstream is written to the file once, also
    if there are copies: false.  "hi" with a copy, both flushed (the destructors
    do that): "hihi". *)
Definition ofile : file := mkf 0 0 [] [] [SOk 100; SOk 100].
Theorem C245_twice_refuted : exists s s1 c c1 s2,
  opened env0 lnul lit ofile s /\ orun (of_step env0 lnul 33) [OWrite [104; 105]] s = Ok (s1, [Val tt]) /\
  oss_copy env0 s1 = Ok c /\ of_flush env0 lnul 33 c = Ok (c1, Val tt) /\
  of_flush env0 lnul 33 (also_in c1 s1) = Ok (s2, Val tt) /\
  f_out (s_file c1) = [104; 105] /\ f_out (s_file s2) = [104; 105; 104; 105].
Proof.
  eexists _, _, _, _, _. split; [left; reflexivity|]. split; [vm_compute; reflexivity|]. split; [vm_compute; reflexivity|].
  split; [vm_compute; reflexivity|]. split; [vm_compute; reflexivity|]. split; reflexivity.
Qed.
Print Assumptions C245_twice_refuted.
(** The number 42 with a copy: the copy writes it and moves the bytes in the
    memory of the original, which then writes a zero byte and a "4". *)
Theorem C245_garbage_refuted : exists s s1 c c1 s2,
  opened env0 lnul lit ofile s /\ orun (of_step env0 lnul 33) [OFormat [52; 50]] s = Ok (s1, [Val tt]) /\
  oss_copy env0 s1 = Ok c /\ of_flush env0 lnul 33 c = Ok (c1, Val tt) /\
  of_flush env0 lnul 33 (also_in c1 s1) = Ok (s2, Val tt) /\
  f_out (s_file c1) = [52; 50] /\ f_out (s_file s2) = [52; 50; 0; 52].
Proof.
  eexists _, _, _, _, _. split; [left; reflexivity|]. split; [vm_compute; reflexivity|]. split; [vm_compute; reflexivity|].
  split; [vm_compute; reflexivity|]. split; [vm_compute; reflexivity|]. split; reflexivity.
Qed.
Print Assumptions C245_garbage_refuted.

(** And so for every text: a stream in any state that a history can leave, with
    the text [w] pending and no room behind it. *)
Lemma str_copy_cap e h m h' m' : str_copy e h m = Ok (h', m') -> mcap m <> 0 -> 0 <= msize m < 2 ^ 31 -> mcap m' = msize m + 1.
Proof.
  intros E Hc Hs. unfold str_copy, is_linked in E. rewrite (proj2 (Z.eqb_neq _ _) Hc) in E. rewrite u64_small in E by lia.
  destruct (resize e 0 h mb_nil (msize m + 1) true) as [[h1 m1]| | |] eqn:R; try discriminate E. cbn [bind] in E.
  destruct (copy_n h1 (mptr m) (msize m1) (mptr m1)) as [h2| | |]; try discriminate E. cbn [bind] in E. injection E as _ <-. cbn [mcap].
  unfold resize, reserve in R. rewrite Z.add_0_r in R. rewrite !u64_small in R by lia. cbn [mcap mb_nil] in R.
  replace (0 <? msize m + 1) with true in R by lia. replace (msize m + 1 <=? 0) with false in R by lia.
  cbn [is_linked mcap mb_nil Z.eqb mptr msize realloc] in R. destruct (malloc_ok e _); [|discriminate R]. cbn [push_blk bind] in R.
  match type of R with context [link ?p ?n] => destruct (link p n) as [q| | |] end; try discriminate R. cbn [bind] in R. injection R as _ <-. reflexivity.
Qed.
Theorem C245_every_text_refuted e nul h f fuel ops s0 s rs w c a t :
  good_env e -> malloc_ok e 4096 = true -> (forall n, malloc_ok e n = true -> n <= 2 ^ 30) ->
  has_nul h nul -> f_state f = 0 -> f_exc f = 0 -> opened e nul h f s0 ->
  Forall (fun o => Z.of_nat (length (bytes_of o)) < 2 ^ 30) ops -> (33 <= fuel)%nat -> errors (f_sched f) >= 1 + clears ops ->
  orun (of_step e nul fuel) ops s0 = Ok (s, rs) ->
  (* pending, without room: *)
  buffered s = Ok (map Some w) -> w <> [] -> s_remaining s = 0 -> msize (s_buf s) = Z.of_nat (length w) ->
  (* the next write(2) takes it: *)
  f_good (s_file s) = true -> f_sched (s_file s) = SOk a :: t -> (length w <= a)%nat ->
  oss_copy e s = Ok c ->
  exists c1, of_flush e nul fuel c = Ok (c1, Val tt) /\ f_out (s_file c1) = f_out (s_file s) ++ w /\
    exists s2 r, of_flush e nul fuel (also_in c1 s) = Ok (s2, r) /\ (r = Val tt -> f_out (s_file s2) = f_out (s_file s) ++ w ++ w).
Proof.
  intros Henv Hmin Hlim Hn Hs Hx Ho HF Hfu He R Bu Wn Rm Ms Fg Fs La Ec.
  destruct (c50_run e nul Henv Hlim Hmin h f fuel ops s0 Hn Hx Hs Ho HF Hfu He) as (s' & rs' & W & R' & _ & A & w' & _ & I & Fo & Fx & Cb & En).
  rewrite R in R'. injection R' as <- _.
  pose proof (OInv_load e nul Hlim s w' I) as Ld. unfold buffered in Bu. rewrite Bu in Ld. injection Ld as Ld.
  assert (w' = w) as -> by (clear - Ld; revert w Ld; induction w' as [|x w' IH]; intros [|y w] E; cbn [map] in E; try discriminate E; [reflexivity|]; injection E as -> E; f_equal; now apply IH).
  pose proof (OInv_bounds _ _ _ _ I) as (B1 & B2 & B3 & B4 & B5). pose proof I as (_ & P & St & B).
  assert (Lw : 0 < Z.of_nat (length w)) by (destruct w; [congruence|cbn [length]; lia]).
  assert (Vs : s_vsize s = Z.of_nat (length w)) by lia.
  assert (Hc0 : mcap (s_buf s) <> 0) by (destruct B as [(_ & _ & _ & V & _)|(b & cells & _ & _ & C & Cb' & _)]; lia).
  unfold oss_copy in Ec. destruct (str_copy e (s_heap s) (s_buf s)) as [[h' b']| | |] eqn:Cp; try discriminate Ec. cbn [bind] in Ec. injection Ec as <-.
  pose proof (str_copy_cap _ _ _ _ _ Cp Hc0 ltac:(lia)) as Cc. rewrite Ms in Cc.
  pose proof (now_in_inv e nul s _ h' I (fun b => str_copy_keeps e _ _ _ _ b Cp)) as I1.
  pose proof (OInv_load e nul Hlim _ w I1) as Ld1. cbn [now_in sput_mem s_heap s_vptr s_pos] in Ld1.
  set (c := mko h' b' (s_vptr s) (s_vsize s) (s_pos s) (s_state s) (s_exc s) (s_file s)).
  set (f1 := mkf (f_state (s_file s)) (f_exc (s_file s)) (f_out (s_file s) ++ w) (f_in (s_file s)) t).
  set (c1 := mko h' b' (s_vptr s) (s_vsize s) 0 (s_state s) (s_exc s) f1).
  assert (Fw : fwrite w (s_file s) = Ok (f1, Val (length w))).
  { unfold fwrite. rewrite Fs. cbn [length]. destruct w as [|x w]; [congruence|]. cbn [fwrite_loop]. unfold iobind, sys_write. rewrite Fs.
    replace (Nat.min a (length (x :: w))) with (length (x :: w)) by lia. rewrite firstn_all. cbn [bind length].
    change (S (length w)) with (length (x :: w)). rewrite skipn_all. cbn [Nat.add]. destruct fuel; reflexivity. }
  assert (E1 : of_overflow e nul (s_capacity c) c = Ok (c1, Val (Z.of_nat (length w)))).
  { assert (Cap : s_capacity c = Z.of_nat (length w)).
    { unfold s_capacity. cbn [c s_buf]. rewrite Cc. replace (Z.of_nat (length w) + 1 =? 0) with false by lia. lia. }
    rewrite Cap. unfold of_overflow, iobind at 1. rewrite Cap. cbn [c s_file s_pos s_heap s_vptr]. rewrite Fg, P, Z.sub_diag.
    change (u64 0) with 0. rewrite (proj2 (Z.ltb_lt 0 _) Lw). cbn [andb]. rewrite P in Ld1. rewrite Ld1. cbn [bind]. rewrite determined_ok. rewrite Fw.
    unfold s_erase_front. cbn [sput_file s_heap s_vptr s_vsize s_pos s_buf]. unfold rotate. change (s_vsize c) with (s_vsize s). change (s_pos c) with (s_pos s). rewrite Vs, P, Z.eqb_refl, Bool.orb_true_r. cbn [bind].
    rewrite Z.sub_diag. unfold oss_overflow, iobind at 1.
    match goal with |- context [s_remaining ?q] => change (s_remaining q) with (u64 (s_vsize s - 0)) end. rewrite Z.sub_0_r, Vs, u64_small by lia.
    rewrite (proj2 (Z.ltb_ge _ _) (Z.le_refl _)). cbn [andb bind]. unfold iobind, s_verify.
    match goal with |- context [s_remaining ?q] => change (s_remaining q) with (u64 (s_vsize s - 0)) end. rewrite Z.sub_0_r, Vs, u64_small by lia.
    rewrite Z.leb_refl. cbn [bind].
    match goal with |- context [s_remaining ?q] => change (s_remaining q) with (u64 (s_vsize s - 0)) end. rewrite Z.sub_0_r, Vs, u64_small by lia.
    reflexivity. }
  exists c1. split; [|split; [reflexivity|]].
  - destruct fuel as [|[|fuel]]; [lia|lia|]. cbn [of_flush].
    change (s_good c) with (s_state s =? 0). change (s_pos c) with (s_pos s). rewrite St, P. cbn [Z.eqb andb]. rewrite (proj2 (Z.eqb_neq (Z.of_nat (length w)) 0)) by lia. cbn [negb].
    unfold iobind. rewrite E1. cbn [bind]. rewrite (proj2 (Z.eqb_neq (Z.of_nat (length w)) 0)) by lia.
    change (s_pos c1) with 0. cbn [Z.eqb negb]. rewrite Bool.andb_false_r. reflexivity.
  - assert (FI : FInv e nul (f_out (s_file s) ++ w) 0 (also_in c1 s) w).
    { exists [], w. split; [reflexivity|]. split; [exact I1|]. split; [cbn [also_in sput_file s_file f_out c1 f1]; now rewrite app_nil_r|]. split; [exact Fx|]. split; [exact Cb|].
      destruct En as (_ & En). split; [lia|]. unfold also_in, sput_file. cbn [s_file f_sched c1 f1]. rewrite Fs in En. cbn [errors] in En. exact En. }
    pose proof (FInv_log e nul Hlim _ _ _ _ FI) as HL.
    destruct (of_flush_ok e nul Henv Hlim _ _ fuel _ _ FI) as (s2 & r & Ef & (A2 & w2 & EW & I2 & Fo2 & _) & Q).
    { pose proof (Z.log2_nonneg (mcap (s_buf (also_in c1 s)))). lia. }
    exists s2, r. split; [exact Ef|]. intros ->. destruct Q as [(_ & Q)|Q]; [|discriminate Q].
    destruct I2 as (_ & P2 & _). assert (w2 = []) as -> by (destruct w2; [reflexivity|cbn [length] in P2; lia]).
    rewrite app_nil_r in EW. subst A2. rewrite Fo2, app_assoc. reflexivity.
Qed.
Print Assumptions C245_every_text_refuted.
(** A stream that meets all of this, with the second write accepted too. *)
Definition ofile3 : file := mkf 0 0 [] [] [SOk 100; SOk 100; SErr].
Example C245_every_text_example : exists s s1 c c1 s2,
  opened env0 lnul lit ofile3 s /\ errors (f_sched ofile3) >= 1 + clears [OWrite [104; 105]] /\
  orun (of_step env0 lnul 33) [OWrite [104; 105]] s = Ok (s1, [Val tt]) /\
  oss_copy env0 s1 = Ok c /\ of_flush env0 lnul 33 c = Ok (c1, Val tt) /\
  of_flush env0 lnul 33 (also_in c1 s1) = Ok (s2, Val tt) /\
  buffered s1 = Ok (map Some [104; 105]) /\ s_remaining s1 = 0 /\ msize (s_buf s1) = 2 /\
  f_good (s_file s1) = true /\ f_sched (s_file s1) = SOk 100 :: [SOk 100; SErr].
Proof.
  eexists _, _, _, _, _. split; [left; reflexivity|]. split; [apply Z.le_ge; vm_compute; discriminate|].
  split; [vm_compute; reflexivity|]. split; [vm_compute; reflexivity|]. split; [vm_compute; reflexivity|]. split; [vm_compute; reflexivity|].
  split; [vm_compute; reflexivity|]. split; [vm_compute; reflexivity|]. split; [vm_compute; reflexivity|]. split; vm_compute; reflexivity.
Qed.
