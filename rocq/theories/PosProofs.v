(** * PosProofs: random access. *)
From Verif Require Import Base UtilModel StreamModel FileModel FileSpec FileProofs OStrModel OStrSpec PosModel PosSpec.
From Coq Require Import ZArith ZifyBool ZifyNat Lia.
Local Open Scope Z_scope.

(** The operating system goes where it is asked to. *)
Lemma target_to : target = seek_to. Proof. reflexivity. Qed.
Lemma size_nonneg d : 0 <= size d. Proof. unfold size. lia. Qed.
Lemma size_app a b : size (a ++ b) = size a + size b. Proof. unfold size. rewrite app_length. lia. Qed.
Lemma size_nil d : size d = 0 -> d = []. Proof. unfold size. destruct d; cbn [length]; [reflexivity|lia]. Qed.
Lemma byte_out d i : size d <= i -> byte d i = 0.
Proof. unfold size, byte. intros H. destruct (i <? 0) eqn:E; [reflexivity|]. apply nth_overflow. lia. Qed.
Lemma byte_app a b i : byte (a ++ b) i = if i <? size a then byte a i else byte b (i - size a).
Proof.
  unfold byte, size. destruct (i <? 0) eqn:E.
  - destruct (i <? Z.of_nat (length a)) eqn:F; [reflexivity|lia].
  - destruct (i <? Z.of_nat (length a)) eqn:F.
    + apply app_nth1. lia.
    + replace (i - Z.of_nat (length a) <? 0) with false by lia. rewrite app_nth2 by lia. f_equal. lia.
Qed.
Lemma byte_skipn n d i : byte (skipn n d) i = if i <? 0 then 0 else byte d (Z.of_nat n + i).
Proof.
  unfold byte. destruct (i <? 0) eqn:E; [reflexivity|]. replace (Z.of_nat n + i <? 0) with false by lia.
  replace (Z.to_nat (Z.of_nat n + i)) with (n + Z.to_nat i)%nat by lia. generalize (Z.to_nat i) as j. intros j.
  revert d. induction n as [|n IH]; intros [|x d]; cbn [skipn Nat.add nth]; try reflexivity; [destruct j; reflexivity|]. apply IH.
Qed.
Lemma byte_firstn n d i : byte (firstn n d) i = if i <? Z.of_nat n then byte d i else 0.
Proof.
  unfold byte. destruct (i <? 0) eqn:E; [destruct (i <? Z.of_nat n); reflexivity|].
  destruct (i <? Z.of_nat n) eqn:F.
  - assert (H : (Z.to_nat i < n)%nat) by lia. revert H. generalize (Z.to_nat i) as j. intros j. clear. revert d j.
    induction n as [|n IH]; intros [|x d] [|j] H; cbn [firstn nth]; try reflexivity; try lia. apply IH. lia.
  - apply nth_overflow. rewrite firstn_length. lia.
Qed.
Lemma byte_repeat n i : byte (repeat 0 n) i = 0.
Proof. unfold byte. destruct (i <? 0); [reflexivity|]. generalize (Z.to_nat i). induction n as [|n IH]; intros [|j]; cbn [repeat nth]; auto. Qed.
Lemma byte_ext a b : size a = size b -> (forall i, 0 <= i < size a -> byte a i = byte b i) -> a = b.
Proof.
  unfold size. revert b. induction a as [|x a IH]; intros [|y b] L H; cbn [length] in *; try lia; [reflexivity|].
  pose proof (H 0 ltac:(lia)) as H0. cbn in H0. subst y. f_equal. apply IH; [lia|].
  intros i Hi. specialize (H (i + 1) ltac:(lia)). unfold byte in *. replace (i + 1 <? 0) with false in H by lia. replace (i <? 0) with false by lia.
  replace (Z.to_nat (i + 1)) with (S (Z.to_nat i)) in H by lia. exact H.
Qed.
(** [overwritten] determines the result. *)
Lemma overwritten_fun d p l a b : overwritten d p l a -> overwritten d p l b -> a = b.
Proof.
  intros (La & Ha) (Lb & Hb). apply byte_ext; [congruence|]. intros i _. rewrite Ha, Hb. reflexivity.
Qed.

Lemma put_at_ok d p l : 0 <= p -> overwritten d p l (put_at d p l).
Proof.
  intros Hp. unfold put_at, overwritten. destruct l as [|c l0].
  - cbn [size length Z.of_nat Z.eqb]. split; [reflexivity|]. intros i. rewrite Z.add_0_r. destruct (p <=? i) eqn:E; cbn [andb]; [|reflexivity].
    replace (i <? p) with false by lia. reflexivity.
  - set (l := c :: l0). assert (Hl : 0 < size l) by (unfold size, l; cbn [length]; lia).
    assert (Lf : size (firstn (Z.to_nat p) (d ++ repeat 0 (Z.to_nat p - length d))) = p).
    { unfold size. rewrite firstn_length, app_length, repeat_length. lia. }
    replace (size l =? 0) with false by lia. split.
    + rewrite !size_app, Lf. unfold size. rewrite skipn_length. lia.
    + intros i. rewrite byte_app, Lf, byte_app. destruct (p <=? i) eqn:E; cbn [andb].
      * replace (i <? p) with false by lia. destruct (i <? p + size l) eqn:F.
        { replace (i - p <? size l) with true by lia. reflexivity. }
        replace (i - p <? size l) with false by lia. rewrite byte_skipn. replace (i - p - size l <? 0) with false by lia. f_equal. unfold size in *. lia.
      * replace (i <? p) with true by lia. rewrite byte_firstn. replace (i <? Z.of_nat (Z.to_nat p)) with true by lia. rewrite byte_app.
        destruct (i <? size d) eqn:F; [reflexivity|]. rewrite byte_repeat. symmetry. apply byte_out. lia.
Qed.
Lemma overwritten_size d p l d' : overwritten d p l d' -> size d' = if size l =? 0 then size d else Z.max (size d) (p + size l).
Proof. intros (H & _). exact H. Qed.
(** Writing on where the last write ended is one write. *)
Lemma put_at_app d p a b : 0 <= p -> put_at (put_at d p a) (p + size a) b = put_at d p (a ++ b).
Proof.
  intros Hp. pose proof (size_nonneg a) as Na. pose proof (size_nonneg b) as Nb.
  apply overwritten_fun with (d := d) (p := p) (l := a ++ b); [|apply put_at_ok; exact Hp].
  pose proof (put_at_ok d p a Hp) as (L1 & B1). pose proof (put_at_ok (put_at d p a) (p + size a) b ltac:(lia)) as (L2 & B2).
  split.
  - rewrite L2, L1, size_app. destruct (size a =? 0) eqn:E1, (size b =? 0) eqn:E2, (size a + size b =? 0) eqn:E3; lia.
  - intros i. rewrite B2, B1, size_app, byte_app.
    destruct (p + size a <=? i) eqn:E1, (i <? p + size a + size b) eqn:E2, (p <=? i) eqn:E3, (i <? p + size a) eqn:E4, (i <? p + (size a + size b)) eqn:E5;
      cbn [andb]; try lia; try reflexivity.
    + replace (i - p <? size a) with false by lia. f_equal. lia.
    + replace (i - p <? size a) with true by lia. reflexivity.
Qed.

(** ** fstream *)
Lemma transfer_read d p l rest : 0 <= p -> skipn (Z.to_nat p) d = l ++ rest -> found_at d p l.
Proof.
  intros Hp E i Hi. assert (L : size l <= size d - p).
  { apply (f_equal (@length _)) in E. rewrite skipn_length, app_length in E. unfold size in *. lia. }
  split; [lia|]. assert (B : byte (skipn (Z.to_nat p) d) i = byte (l ++ rest) i) by (rewrite E; reflexivity).
  rewrite byte_skipn, byte_app in B. replace (i <? 0) with false in B by lia. replace (i <? size l) with true in B by lia.
  rewrite <- B. f_equal. lia.
Qed.
Definition now (r : ra) : list Z * Z := (ra_data r, ra_pos r).
Lemma settle_read r f l : 0 <= ra_pos r -> f_out f = [] -> skipn (Z.to_nat (ra_pos r)) (ra_data r) = l ++ f_in f ->
  now (settle (mkra (ra_data r) (ra_pos r) (at_offset (ra_data r) (ra_pos r) (ra_f r))) f) = (ra_data r, ra_pos r + size l).
Proof.
  intros Hp O E. unfold settle, at_offset, now. cbn [ra_data ra_pos ra_f f_in]. rewrite O, E. cbn [length put_at Z.of_nat]. rewrite app_length. unfold size.
  f_equal. lia.
Qed.
Lemma settle_write r f l : f_out f = l -> f_in f = skipn (Z.to_nat (ra_pos r)) (ra_data r) ->
  now (settle (mkra (ra_data r) (ra_pos r) (at_offset (ra_data r) (ra_pos r) (ra_f r))) f) = (put_at (ra_data r) (ra_pos r) l, ra_pos r + size l).
Proof. intros O E. unfold settle, at_offset, now. cbn [ra_data ra_pos ra_f f_in]. rewrite O, E. unfold size. f_equal. lia. Qed.

Lemma step_ok o r r' x : 0 <= ra_pos r -> ra_step o r = Ok (r', x) -> access (now r) o x (now r') /\ 0 <= ra_pos r'.
Proof.
  intros Hp H. assert (Sz : forall l, 0 <= size l) by apply size_nonneg.
  assert (Nn : forall r1 d p, now r1 = (d, p) -> 0 <= p -> 0 <= ra_pos r1) by (intros r1 d p E; injection E as _ ->; auto).
  destruct o as [l|n|n|n w| | |]; cbn [ra_step] in H.
  - unfold ra_write, on_file, iobind in H. set (f0 := at_offset _ _ _) in H.
    destruct (fwrite l f0) as [[f q]| | |] eqn:E; cbn [bind] in H; try discriminate.
    apply fwrite_loop_spec in E. destruct E as (c & u & H1 & H2 & H3 & H4 & H5 & H6). cbn [f0 at_offset f_out f_in app] in H2, H3.
    assert (Ev : q = Val c \/ exists ex, q = Thrown ex).
    { destruct H6 as [(-> & -> & _)|(_ & v & y & _ & _ & _ & _ & Hr)]; [left; reflexivity|]. destruct (Z.land _ _ =? 0); [left; exact Hr|right; exact Hr]. }
    assert (Ls : size (firstn c l) = Z.of_nat c) by (unfold size; rewrite firstn_length; lia).
    pose proof (settle_write r f (firstn c l) H2 H3) as S. rewrite Ls in S. change (at_offset (ra_data r) (ra_pos r) (ra_f r)) with f0 in S.
    assert (R : r' = settle (mkra (ra_data r) (ra_pos r) f0) f /\ (x = GotNum (Z.of_nat c) \/ x = Failed)).
    { destruct Ev as [->|(ex & ->)]; injection H as <- <-; auto. }
    destruct R as (-> & R). rewrite S. split; [|eapply Nn; [exact S|lia]].
    apply acc_write; [exact H1|apply put_at_ok; exact Hp|exact R].
  - unfold ra_read, on_file in H. set (f0 := at_offset _ _ _) in H.
    destruct (fread n (f0, repeat 0 n)) as [[[f buf] q]| | |] eqn:E; try discriminate.
    unfold fread in E. rewrite <- (app_nil_r (repeat 0 n)) in E. change (repeat 0 n ++ []) with ([] ++ repeat 0 n ++ []) in E.
    apply fread_loop_spec in E; [|reflexivity|rewrite repeat_length; reflexivity].
    destruct E as (l & rest & v & H1 & H2 & H3 & _ & H5 & _ & _ & _ & _ & H10). rewrite repeat_length in H2. cbn [f0 at_offset f_out f_in app] in H1, H3, H5.
    pose proof (settle_read r f l Hp H5 H1) as S. change (at_offset (ra_data r) (ra_pos r) (ra_f r)) with f0 in S.
    assert (R : r' = settle (mkra (ra_data r) (ra_pos r) f0) f /\ (x = GotBytes l \/ x = Failed)).
    { destruct q as [c|ex]; injection H as <- <-; [|auto]. split; [reflexivity|]. left. rewrite H10, H3, app_nil_r. cbn [Nat.add].
      rewrite firstn_app, firstn_all, Nat.sub_diag, firstn_O, app_nil_r. reflexivity. }
    destruct R as (-> & R). rewrite S. split; [|eapply Nn; [exact S|specialize (Sz l); lia]].
    apply acc_read; [lia| |exact R]. eapply transfer_read; eauto.
  - unfold ra_readsome, on_file in H. set (f0 := at_offset _ _ _) in H.
    destruct (freadsome n f0) as [[f q]| | |] eqn:E; try discriminate.
    apply freadsome_spec in E. destruct E as (l & v & y & H1 & H2 & H3 & _ & _ & _ & H7). cbn [f0 at_offset f_out f_in] in H1, H3.
    pose proof (settle_read r f l Hp H3 H1) as S. change (at_offset (ra_data r) (ra_pos r) (ra_f r)) with f0 in S.
    assert (Q : q = Val l \/ exists ex, q = Thrown ex).
    { destruct y as [k| | |]; [| destruct H7 | |].
      - destruct H7 as (_ & A & B). destruct l as [|b l]; [|left; apply B; discriminate]. destruct (A eq_refl) as (_ & A'). destruct (_ =? 0); eauto.
      - destruct H7 as (-> & _ & ->). auto.
      - destruct H7 as (-> & _ & A'). destruct (_ =? 0); eauto. }
    assert (R : r' = settle (mkra (ra_data r) (ra_pos r) f0) f /\ (x = GotBytes l \/ x = Failed)).
    { destruct Q as [->|(ex & ->)]; injection H as <- <-; auto. }
    destruct R as (-> & R). rewrite S. split; [|eapply Nn; [exact S|specialize (Sz l); lia]].
    apply acc_readsome; [lia| |exact R]. eapply transfer_read; eauto.
  - unfold ra_seek in H. fold (size (ra_data r)) in H. rewrite target_to in H. destruct (seek_to (ra_pos r) (size (ra_data r)) n w <? 0) eqn:E.
    + assert (R : now r' = now r /\ (x = GotNum (-1) \/ x = Failed)).
      { unfold on_file, iobind, f_fail in H. destruct (_ =? 0); cbn [bind ret] in H; injection H as <- <-;
          (split; [|auto]); unfold now, settle, at_offset; cbn [ra_data ra_pos ra_f f_out f_in put_at length]; f_equal; lia. }
      destruct R as (R1 & R2). rewrite R1. split; [|eapply Nn; [exact R1|exact Hp]]. apply acc_seek_bad; [lia|exact R2].
    + injection H as <- <-. unfold now. cbn [ra_data ra_pos]. split; [|lia]. apply acc_seek. lia.
  - injection H as <- <-. split; [constructor|exact Hp].
  - injection H as <- <-. split; [apply acc_size|exact Hp].
  - injection H as <- <-. split; [constructor|exact Hp].
Qed.
Lemma run_ok ops : forall r r' xs, 0 <= ra_pos r -> ra_run ops r = Ok (r', xs) -> accesses (now r) ops xs (now r').
Proof.
  induction ops as [|o ops IH]; intros r r' xs Hp H; cbn [ra_run] in H.
  - injection H as <- <-. constructor.
  - destruct (ra_step o r) as [[r1 x]| | |] eqn:E; cbn [bind] in H; try discriminate.
    destruct (step_ok o r r1 x Hp E) as (A & Hp1).
    destruct (ra_run ops r1) as [[r2 ys]| | |] eqn:E2; cbn [bind] in H; try discriminate. injection H as <- <-.
    econstructor; [exact A|]. apply (IH _ _ _ Hp1 E2).
Qed.

(** Nothing is stored outside the caller's array. *)
Definition sane {A} (o : outcome A) : Prop := match o with Ok _ | NoFuel => True | _ => False end.
Lemma retry_sane : forall fuel n f, sane (fread_retry fuel n f).
Proof.
  induction fuel as [|fuel IH]; intros n f; [exact I|]. cbn [fread_retry]. unfold iobind, sys_read.
  destruct (f_sched f) as [|[k| | |] t]; cbn [bind]; try exact I. apply IH.
Qed.
Lemma readsome_sane n f : sane (freadsome n f).
Proof.
  unfold freadsome, iobind at 1. pose proof (retry_sane (S (length (f_sched f))) n f) as H.
  destruct (fread_retry _ n f) as [[g [q|x]]| | |]; cbn [bind]; try exact H; try exact I.
  unfold iobind, f_fail, ret. destruct q as [[|b d]| | |]; try exact I; destruct (_ =? 0)%Z; exact I.
Qed.
Lemma fread_loop_sane : forall fuel n br f buf, (n <= length buf)%nat -> sane (fread_loop fuel n br (f, buf)).
Proof.
  induction fuel as [|fuel IH]; intros n br f buf H; [exact I|]. cbn [fread_loop]. destruct ((br <? n)%nat && f_good f) eqn:E; [|exact I].
  pose proof (readsome_sane (n - br) f) as S. destruct (freadsome (n - br) f) as [[g [d|x]]| | |] eqn:R; try exact S; try exact I.
  apply freadsome_spec in R. destruct R as (d0 & v & x & H1 & H2 & H3 & H4 & H5 & H6 & H7).
  assert (L : (length d <= n - br)%nat).
  { destruct x as [k| | |]; [|destruct H7| |].
    - destruct H7 as (_ & A & B). destruct d0 as [|c d0]; [|destruct (B ltac:(discriminate)) as (_ & Q); injection Q as ->; exact H2].
      destruct (A eq_refl) as (_ & Q). destruct (_ =? 0)%Z; [injection Q as ->; cbn; lia|discriminate].
    - destruct H7 as (_ & _ & Q). injection Q as ->. cbn; lia.
    - destruct H7 as (_ & _ & Q). destruct (_ =? 0)%Z; [injection Q as ->; cbn; lia|discriminate]. }
  unfold buf_store. replace (br + length d <=? length buf)%nat with true by lia. apply IH. rewrite !app_length, firstn_length, skipn_length. lia.
Qed.
Lemma fwrite_loop_sane : forall fuel l bw f, sane (fwrite_loop fuel l bw f).
Proof.
  induction fuel as [|fuel IH]; intros l bw f; [exact I|]. cbn [fwrite_loop]. destruct l as [|b l]; [exact I|].
  unfold iobind, sys_write, f_fail, ret. destruct (f_sched f) as [|[k| | |] t]; cbn [bind]; try exact I; try apply IH.
  - destruct (Nat.min k (length (b :: l))); [destruct (_ =? 0)%Z; exact I|apply IH].
  - destruct (_ =? 0)%Z; exact I.
Qed.
Lemma ra_sane ops : forall r, sane (ra_run ops r).
Proof.
  induction ops as [|o ops IH]; intros r; [exact I|]. cbn [ra_run].
  assert (S : sane (ra_step o r)).
  { destruct o as [l|n|n|n w| | |]; cbn [ra_step]; try exact I.
    - unfold ra_write, on_file, iobind. pose proof (fwrite_loop_sane (S (length (f_sched (at_offset (ra_data r) (ra_pos r) (ra_f r))))) l 0 (at_offset (ra_data r) (ra_pos r) (ra_f r))) as Q.
      unfold fwrite. destruct (fwrite_loop _ l 0 _) as [[f [q|x]]| | |]; cbn [bind]; try exact Q; exact I.
    - unfold ra_read, on_file, fread. pose proof (fread_loop_sane (S (length (f_sched (fst (at_offset (ra_data r) (ra_pos r) (ra_f r), repeat 0 n))))) n 0 (at_offset (ra_data r) (ra_pos r) (ra_f r)) (repeat 0 n)) as Q.
      rewrite repeat_length in Q. specialize (Q (le_n n)). destruct (fread_loop _ n 0 _) as [[[f buf] [q|x]]| | |]; try exact Q; exact I.
    - unfold ra_readsome, on_file. pose proof (readsome_sane n (at_offset (ra_data r) (ra_pos r) (ra_f r))) as Q. destruct (freadsome _ _) as [[f [q|x]]| | |]; try exact Q; exact I.
    - unfold ra_seek. destruct (_ <? 0); [|exact I]. unfold on_file, iobind, f_fail, ret. destruct (_ =? 0)%Z; exact I. }
  destruct (ra_step o r) as [[r1 x]| | |]; cbn [bind]; try exact S. specialize (IH r1). destruct (ra_run ops r1) as [[r2 xs]| | |]; try exact IH; exact I.
Qed.
