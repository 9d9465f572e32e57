From Verif Require Import Base UtilModel StreamModel StoreModel StoreProofs VectorSpec MemModel MemSpec MemProofs MemRun FileModel FileSpec DiskModel DiskSpec.
From Coq Require Import ZArith ZifyBool ZifyNat.
Local Open Scope nat_scope.

Lemma firstn_plus {A} (l : list A) a b : firstn (a + b) l = firstn a l ++ firstn b (skipn a l).
Proof. revert l. induction a as [|a IH]; intros [|x l]; cbn [Nat.add firstn skipn app]; [reflexivity|reflexivity|destruct b; reflexivity|now rewrite IH]. Qed.
Lemma firstn_self {A} (l x : list A) a : firstn a l = x -> x = firstn (length x) l.
Proof.
  intros <-. rewrite firstn_length. destruct (Nat.le_ge_cases a (length l)); [now rewrite Nat.min_l by lia|].
  rewrite Nat.min_r by lia. rewrite firstn_all. apply firstn_all2. lia.
Qed.
(** ** Closing *)
Lemma d_close_ok c t : Forall (fun r => r = SIntr) c -> d_close (c ++ SOk 0 :: t) = (Done, t).
Proof. induction 1 as [|x l -> _ IH]; [reflexivity|exact IH]. Qed.

(** ** Writing *)
Lemma d_write_all {A} s : forall (d l d' : list A) r t, d_write s d l = (d', r, t) ->
  exists c, c <= length l /\ d' = d ++ firstn c l /\ (r = Done -> c = length l \/ In SAgain s).
Proof.
  induction s as [|a s IH]; intros d l d' r t E; destruct l as [|x l]; cbn [d_write] in E.
  - injection E as <- <- <-. exists 0. rewrite app_nil_r. auto.
  - injection E as <- <- <-. exists 0. split; [lia|]. split; [symmetry; apply app_nil_r|discriminate].
  - injection E as <- <- <-. exists 0. rewrite app_nil_r. auto.
  - destruct a as [k| | |].
    + destruct (min k (length (x :: l))) as [|c'] eqn:M.
      * injection E as <- <- <-. exists 0. split; [lia|]. split; [symmetry; apply app_nil_r|discriminate].
      * set (c := S c') in *. apply IH in E. destruct E as (c0 & L & -> & D). rewrite skipn_length in L, D. exists (c + c0).
        assert (c <= length (x :: l)) by lia. split; [lia|]. split.
        { rewrite <- app_assoc. f_equal. symmetry. apply firstn_plus. }
        intro Hr. destruct (D Hr); [left; lia|right; now right].
    + apply IH in E. destruct E as (c0 & L & -> & D). exists c0. split; [exact L|]. split; [reflexivity|].
      intro Hr. destruct (D Hr); [now left|right; now right].
    + injection E as <- <- <-. exists 0. split; [lia|]. split; [symmetry; apply app_nil_r|]. intros _. right. now left.
    + injection E as <- <- <-. exists 0. split; [lia|]. split; [symmetry; apply app_nil_r|discriminate].
Qed.
Lemma d_write_ok {A} u : forall (d l : list A) t, Forall progress u -> (u = [] \/ offered (removelast u) < length l) -> length l <= offered u ->
  d_write (u ++ t) d l = (d ++ l, Done, t).
Proof.
  induction u as [|a u IH]; intros d l t F R O.
  - cbn [offered] in O. destruct l; [|cbn in O; lia]. cbn [app]. destruct t; cbn [d_write]; rewrite app_nil_r; reflexivity.
  - destruct l as [|x l]; [destruct R as [R|R]; [discriminate|cbn in R; lia]|]. inversion F as [|? ? Fa Fu]; subst.
    destruct R as [R|R]; [discriminate|]. cbn [app d_write]. destruct a as [k| | |]; try contradiction.
    + cbn [progress] in Fa. destruct (min k (length (x :: l))) as [|c'] eqn:M; [cbn [length] in M; lia|]. set (c := S c') in *.
      cbn [offered] in O. destruct u as [|b u].
      * cbn [offered] in O. rewrite skipn_all2, firstn_all2 by lia. cbn [app]. destruct t; reflexivity.
      * change (removelast (SOk k :: b :: u)) with (SOk k :: removelast (b :: u)) in R. cbn [offered] in R.
        rewrite IH; [|exact Fu|right; rewrite skipn_length; lia|rewrite skipn_length; lia].
        now rewrite <- app_assoc, firstn_skipn.
    + destruct u as [|b u]; [cbn [offered length] in O; lia|].
      apply IH; [exact Fu|right; exact R|exact O].
Qed.
(** The loop is fstream's. *)
Lemma d_write_fwrite_loop s : forall fuel d l i bw, length s < fuel ->
  match d_write s d l with
  | (d', Done, t) => exists n, fwrite_loop fuel l bw (mkf 0 allbadbits d i s) = Ok (mkf 0 allbadbits d' i t, Val n)
  | (d', Threw x, t) => exists st, fwrite_loop fuel l bw (mkf 0 allbadbits d i s) = Ok (mkf st allbadbits d' i t, Thrown x)
  | (_, Crashed, _) => fwrite_loop fuel l bw (mkf 0 allbadbits d i s) = NoFuel
  end.
Proof.
  induction s as [|a s IH]; intros fuel d l i bw H; (destruct fuel as [|fuel]; [lia|]); cbn [length] in H;
    destruct l as [|x l]; cbn [d_write fwrite_loop]; try (eexists; reflexivity).
  destruct a as [k| | |]; unfold iobind, sys_write; cbn [f_sched f_state f_exc f_out f_in].
    + set (c := min k (length (x :: l))). destruct c as [|c'].
      * cbn [firstn]. rewrite app_nil_r. eexists. reflexivity.
      * apply IH. lia.
    + apply IH. lia.
    + eexists. reflexivity.
    + eexists. reflexivity.
Qed.

(** ** Reading *)
Lemma d_read_done u : forall h p n br fin t h' r t', n - br <= length fin -> Forall no_error u ->
  (u = [] \/ offered_read (removelast u) < n - br) -> n - br <= offered_read u ->
  d_read (u ++ t) h p n br fin = Ok (h', r, t') -> r = Done /\ t' = t.
Proof.
  induction u as [|a u IH]; intros h p n br fin t h' r t' L F R O E.
  - cbn [offered_read] in O. assert (X : (br <? n) = false) by lia. destruct t; cbn [app d_read] in E; rewrite X in E; injection E as <- <- <-; auto.
  - destruct R as [R|R]; [discriminate|]. assert (X : (br <? n) = true) by lia. cbn [app d_read] in E. rewrite X in E.
    inversion F as [|? ? Fa Fu]; subst. destruct a as [k| | |]; [| | |contradiction Fa; reflexivity].
    + destruct (firstn (min (S k) (n - br)) fin) as [|y z] eqn:Ef.
      { apply (f_equal (@length _)) in Ef. rewrite firstn_length in Ef. cbn [length] in Ef. lia. }
      assert (Lx : length (y :: z) = min (S k) (n - br)) by (rewrite <- Ef, firstn_length; lia).
      rewrite <- Ef in *. clear Ef y z. set (x := firstn _ _) in *.
      destruct (store_n h _ x) as [h1| | |]; try discriminate. rewrite bind_Ok in E.
      destruct u as [|b u].
      * cbn [offered_read] in O. apply (IH h1 p n (br + length x) (skipn (length x) fin) t h' r t'); auto; try (rewrite ?skipn_length; cbn [offered_read]; lia).
      * change (removelast (SOk k :: b :: u)) with (SOk k :: removelast (b :: u)) in R. cbn [offered_read] in R. cbn [offered_read] in O.
        apply (IH h1 p n (br + length x) (skipn (length x) fin) t h' r t'); auto; try (rewrite skipn_length; lia).
        { right. lia. }
        { cbn [offered_read]. lia. }
    + destruct u as [|b u]; [cbn [offered_read] in O; lia|].
      eapply (IH h p n br fin t h' r t'); eauto.
    + destruct u as [|b u]; [cbn [offered_read] in O; lia|].
      eapply (IH h p n br fin t h' r t'); eauto.
Qed.

Section WithEnv.
  Variable e : env.
  Hypothesis Henv : good_env e.
  Hypothesis Hmem : enough_memory e.

  Lemma d_read_gen s : forall h m br l fin, Minv e h m l -> br <= length l -> (br < length l -> (0 < mcap m)%Z) ->
    exists h' r t c, d_read s h (mptr m) (length l) br fin = Ok (h', r, t) /\ Step h m h' m /\
      Minv e h' m (firstn br l ++ firstn c fin ++ skipn (br + c) l) /\ br + c <= length l /\ c <= length fin /\ (r = Done -> br + c = length l).
  Proof.
    assert (Stop : forall h m br l fin r (t : list sysres), Minv e h m l -> br <= length l -> (r = Done -> br = length l) ->
      exists h' r' t' c, Ok (h, r, t) = Ok (h', r', t') /\ Step h m h' m /\
        Minv e h' m (firstn br l ++ firstn c fin ++ skipn (br + c) l) /\ br + c <= length l /\ c <= @length (option Z) fin /\ (r' = Done -> br + c = length l)).
    { intros h m br l fin r t I B D. exists h, r, t, 0. split; [reflexivity|]. split; [apply Step_refl|]. rewrite Nat.add_0_r.
      cbn [firstn app]. rewrite firstn_skipn. split; [exact I|]. split; [lia|]. split; [lia|exact D]. }
    induction s as [|a s IH]; intros h m br l fin I B C; cbn [d_read].
    - destruct (Nat.ltb_spec br (length l)); apply Stop; auto; try discriminate; lia.
    - destruct (Nat.ltb_spec br (length l)) as [Lt|Ge]; [|apply Stop; auto; lia].
      destruct a as [k| | |]; [|now apply IH|now apply IH|apply Stop; auto; discriminate].
      destruct (firstn (min (S k) (length l - br)) fin) as [|y z] eqn:Ef; [apply Stop; auto; discriminate|].
      assert (Lx : length (y :: z) = min (min (S k) (length l - br)) (length fin)) by (rewrite <- Ef, firstn_length; lia).
      pose proof (firstn_self _ _ _ Ef) as Ex.
      set (x := y :: z) in *. clearbody x. clear Ef y z.
      assert (El : l = firstn br l ++ firstn (length x) (skipn br l) ++ skipn (br + length x) l).
      { rewrite (Nat.add_comm br), <- skipn_skipn, firstn_skipn. symmetry. apply firstn_skipn. }
      rewrite El in I. assert (Lb : length (firstn br l) = br) by (rewrite firstn_length; lia).
      destruct (store_in e h m _ _ _ x I (fun _ => C Lt)) as (h1 & E1 & S1 & I1).
      { rewrite firstn_length, skipn_length. lia. }
      rewrite Lb in E1. rewrite E1, bind_Ok.
      set (l1 := firstn br l ++ x ++ skipn (br + length x) l) in *.
      assert (L1 : length l1 = length l).
      { unfold l1. rewrite !app_length, Lb, skipn_length. lia. }
      destruct (IH h1 m (br + length x) l1 (skipn (length x) fin) I1 ltac:(lia) (fun _ => C Lt)) as (h2 & r & t & c & E2 & S2 & I2 & B2 & F2 & D2).
      rewrite L1 in E2, B2, D2. exists h2, r, t, (length x + c). split; [exact E2|]. split; [eapply Step_trans; eassumption|].
      split; [|split; [lia|split; [rewrite skipn_length in F2; lia|intro Hr; specialize (D2 Hr); lia]]].
      replace (firstn br l ++ firstn (length x + c) fin ++ skipn (br + (length x + c)) l) with
        (firstn (br + length x) l1 ++ firstn c (skipn (length x) fin) ++ skipn (br + length x + c) l1); [exact I2|].
      assert (F1 : firstn (br + length x) l1 = firstn br l ++ x).
      { unfold l1. rewrite app_assoc, firstn_app, app_length, Lb, Nat.sub_diag, firstn_all2 by (rewrite app_length; lia). apply app_nil_r. }
      assert (F3 : skipn (br + length x + c) l1 = skipn (br + (length x + c)) l).
      { unfold l1. rewrite app_assoc. rewrite skipn_app, skipn_all2 by (rewrite app_length; lia). rewrite app_length, Lb. cbn [app].
        rewrite skipn_skipn. f_equal. lia. }
      rewrite F1, F3, <- app_assoc. f_equal. rewrite app_assoc. f_equal.
      rewrite firstn_plus. f_equal. exact Ex.
  Qed.

  (** reserve and then setting the size is resize. *)
  Lemma resize_reserve mfc h m n x : (0 <= mfc <= 1)%Z -> (0 <= n)%Z -> (n + mfc <= 2 ^ 31)%Z ->
    resize e mfc h m n x = (' (h, m) <- reserve e mfc h m n x ;; Ok (h, mkmb (mptr m) n (mcap m))).
  Proof.
    intros M N B. unfold resize. destruct (Z.ltb_spec (mcap m) (u64 (n + mfc))) as [L|L]; [reflexivity|].
    unfold reserve. rewrite (proj2 (Z.leb_le _ _) L). reflexivity.
  Qed.
  Lemma resize_noop mfc h m n x : (0 <= mfc <= 1)%Z -> (0 <= n)%Z -> (n + mfc <= 2 ^ 31)%Z -> (n + mfc <= mcap m)%Z ->
    resize e mfc h m n x = Ok (h, mkmb (mptr m) n (mcap m)).
  Proof.
    intros M N B C. unfold resize. rewrite u64_small by lia. rewrite (proj2 (Z.ltb_ge _ _)) by lia. reflexivity.
  Qed.

  Lemma read_file_gen h m l fsize fin s : Minv e h m l -> (Z.of_nat fsize <= 2 ^ 31)%Z ->
    exists h' m' r, read_file e 0 h m fsize fin s = Ok (h', m', r) /\ Step h m h' m' /\
      (r = Done -> Minv e h' m' (firstn fsize fin) /\ fsize <= length fin) /\
      (r <> Done -> msize m' = msize m /\ ((0 < mcap m)%Z \/ length l <= fsize -> exists l', Minv e h' m' l')).
  Proof.
    intros I B. unfold read_file. destruct s as [|a s].
    { exists h, m, Crashed. split; [reflexivity|]. split; [apply Step_refl|]. split; [discriminate|]. eauto. }
    destruct (sys_opens a).
    2:{ exists h, m, (Threw file_exception). split; [reflexivity|]. split; [apply Step_refl|]. split; [discriminate|]. eauto. }
    destruct s as [|a2 s].
    { exists h, m, Crashed. split; [reflexivity|]. split; [apply Step_refl|]. split; [discriminate|]. eauto. }
    assert (Unwind : forall x t, d_unwind x t <> Done) by (intros x t; unfold d_unwind; destruct (fst (d_close t)); discriminate).
    destruct a2 as [k| | |]; try (eexists; eexists; eexists; split; [reflexivity|]; split; [apply Step_refl|]; split; [intro X; now apply Unwind in X|eauto]).
    destruct (resize_ok e Hmem 0 h m l (Z.of_nat fsize) false ltac:(lia) ltac:(lia) ltac:(lia) I) as (h1 & m1 & l1 & E1 & S1 & I1 & C1 & L1 & F1 & _).
    rewrite resize_reserve in E1 by lia.
    destruct (reserve_gen e Hmem 0 h m l (Z.of_nat fsize) false ltac:(lia) ltac:(lia) ltac:(lia) I) as (h2 & m2 & E2 & S2 & Z2 & C2 & R2).
    rewrite E2, bind_Ok in E1. rewrite E2, bind_Ok. injection E1 as <- Em. rewrite Nat2Z.id in *.
    assert (P1 : mptr m1 = mptr m2) by (rewrite <- Em; reflexivity). assert (Cc1 : mcap m1 = mcap m2) by (rewrite <- Em; reflexivity).
    assert (O1 : owner m1 = owner m2) by (unfold owner; rewrite P1, Cc1; reflexivity).
    destruct (d_read_gen s h2 m1 0 l1 fin I1 ltac:(lia)) as (h3 & r & t & c & E3 & S3 & I3 & B3 & F3 & D3); [rewrite Cc1; lia|].
    rewrite L1, P1 in E3. rewrite E3, bind_Ok. cbn [firstn app Nat.add] in I3.
    assert (S3' : Step h2 m2 h3 m2).
    { eapply Step_trans; [apply (Step_same h2 m2 m1); exact O1|]. eapply Step_trans; [exact S3|]. apply Step_same. symmetry. exact O1. }
    assert (Keep : ((0 < mcap m)%Z \/ length l <= fsize) -> exists l', Minv e h3 m2 l').
    { intro Hk. destruct I as ((Sz & Sb) & I).
      assert (Hle : (msize m2 <= mcap m2)%Z).
      { rewrite Z2, Sz. destruct Hk as [Hk|Hk]; [|lia]. destruct I as [(X & _)|O]; [lia|].
        destruct O as (_ & b & rr & _ & _ & Lr). rewrite app_length in Lr.
        destruct R2 as [(_ & _ & ->)|(b' & c' & ? & _)]; lia. }
      destruct I3 as (_ & [(X & K)|(Hcap & b & rr & P & N & Lr)]).
      - rewrite Cc1 in X. assert (length l = 0) by (rewrite Z2, Sz in Hle; lia). assert (fsize = 0) by lia.
        subst fsize. destruct l1; [|discriminate]. rewrite skipn_nil, app_nil_r in K. assert (c = 0) by (cbn in B3; lia). subst c. cbn [firstn] in K.
        exists []. split; [split; [rewrite Z2, Sz; cbn; lia|cbn; lia]|]. left. split; [exact X|].
        destruct K as [(P & _)|(b & kk & pre & post & P & K)]; [left; rewrite <- P1; auto|right; rewrite <- P1; exists b, kk, pre, post; auto].
      - set (cells := (firstn c fin ++ skipn c l1) ++ rr) in *. rewrite Cc1, P1 in *. exists (firstn (Z.to_nat (msize m2)) cells).
        assert (Lf : length (firstn (Z.to_nat (msize m2)) cells) = Z.to_nat (msize m2)) by (rewrite firstn_length; lia).
        split; [rewrite Lf; lia|]. right. eapply (Owning_intro e h3 m2 _ b cells); auto; try lia. now rewrite Lf. }
    destruct r as [|x|].
    - destruct (fst (d_close t)) eqn:Ec.
      + rewrite resize_noop by lia. rewrite bind_Ok. exists h3, (mkmb (mptr m2) (Z.of_nat fsize) (mcap m2)), Done.
        split; [reflexivity|]. split.
        { eapply Step_trans; [exact S2|]. eapply Step_trans; [exact S3'|]. apply Step_same. reflexivity. }
        split; [intros _|congruence]. rewrite Em. specialize (D3 eq_refl). rewrite L1 in D3, B3. cbn [Nat.add] in D3. subst c.
        rewrite skipn_all2, app_nil_r in I3 by lia. split; [exact I3|lia].
      + exists h3, m2, (Threw x). split; [reflexivity|]. split; [eapply Step_trans; eassumption|]. split; [discriminate|]. auto.
      + exists h3, m2, Crashed. split; [reflexivity|]. split; [eapply Step_trans; eassumption|]. split; [discriminate|]. auto.
    - exists h3, m2, (d_unwind x t). split; [reflexivity|]. split; [eapply Step_trans; eassumption|].
      split; [intro X; now apply Unwind in X|auto].
    - exists h3, m2, Crashed. split; [reflexivity|]. split; [eapply Step_trans; eassumption|]. split; [discriminate|auto].
  Qed.
End WithEnv.

(** ** Histories *)
Section Hist.
  Variable e : env.
  Hypothesis Henv : good_env e.
  Hypothesis Hmem : enough_memory e.
  Variable h0 : heap.
  Hypothesis Hc : callers h0.

  Definition DInv (st : dstate) (sp : dspec) : Prop :=
    let '(h, ms, fs) := st in SInv e h0 h ms (fst sp) /\ Forall2 file_agrees (snd sp) fs.

  Lemma Forall2_nth_r {A B} (R : A -> B -> Prop) l l' i y : Forall2 R l l' -> nth_error l' i = Some y -> exists x, nth_error l i = Some x /\ R x y.
  Proof.
    intro F. revert i. induction F as [|a b l l' H F IH]; intros [|i] E; try discriminate; cbn [nth_error] in *.
    - injection E as <-. eauto.
    - eauto.
  Qed.
  Lemma Forall2_len {A B} (R : A -> B -> Prop) l l' : Forall2 R l l' -> length l = length l'.
  Proof. induction 1; cbn [length]; lia. Qed.
  Lemma Forall2_put {A B} (R : A -> B -> Prop) l l' i x y : Forall2 R l l' -> R x y -> Forall2 R (put l i x) (put l' i y).
  Proof.
    intros F H. unfold put. revert i. induction F as [|a b l l' H1 F IH]; intros [|i]; cbn [firstn skipn app]; constructor; auto. apply IH.
  Qed.

  Lemma dstep_ok st sp o : DInv st sp -> dop_pre h0 sp o -> exists st', dstep e st o = Ok st' /\ DInv st' (dspec_step h0 sp o).
  Proof.
    destruct st as [[h ms] fs], sp as [ss gs]. intros [I F] P. cbn [fst snd] in *. destruct o as [o|i f s|i f s]; cbn [dop_pre] in P.
    - destruct (mstep_ok e Henv Hmem h0 Hc h ms ss o I P) as (h' & ms' & E & I' & _). unfold dstep. rewrite E, bind_Ok.
      eexists. split; [reflexivity|]. split; [exact I'|exact F].
    - destruct P as (Hi & Hf & k & u & t & c & -> & Fp & R & O & -> & Fc).
      destruct (nth_error ms i) as [m|] eqn:Em; [|apply nth_error_None in Em; rewrite (s_len _ _ _ _ _ I) in Em; lia].
      destruct (s_ok _ _ _ _ _ I i m Em) as (l & Im & A).
      assert (Hfs : f < length fs) by (rewrite <- (Forall2_len _ _ _ F); exact Hf).
      destruct (nth_error fs f) as [old|] eqn:Ef; [|apply nth_error_None in Ef; lia].
      unfold dstep. unfold rd at 1. rewrite Em, bind_Ok. unfold mb_bytes. rewrite (Minv_load e h m l Im), bind_Ok. unfold rd. rewrite Ef, bind_Ok.
      unfold write_file. cbn [sys_opens]. rewrite (agrees_length _ _ A) in R, O.
      rewrite (d_write_ok u [] l (c ++ [SOk 0]) Fp R O), (d_close_ok c [] Fc). cbn [fst app].
      rewrite wr_put by exact Hfs. rewrite bind_Ok. eexists. split; [reflexivity|]. split; [exact I|]. cbn [snd dspec_step].
      apply Forall2_put; [exact F|exact A].
    - destruct P as (Hi & c & Hfc & Hf & Hsz & k & j & u & t & cc & -> & Fp & R & O & -> & Fc).
      destruct (nth_error ms i) as [m|] eqn:Em; [|apply nth_error_None in Em; rewrite (s_len _ _ _ _ _ I) in Em; lia].
      destruct (s_ok _ _ _ _ _ I i m Em) as (l & Im & A).
      assert (Hfs : f < length fs) by (rewrite <- (Forall2_len _ _ _ F); exact Hf).
      destruct (nth_error fs f) as [old|] eqn:Ef; [|apply nth_error_None in Ef; lia].
      destruct (Forall2_nth_r _ _ _ _ _ F Ef) as (x & Ex & Fx). unfold file_of in Hfc. rewrite (nth_error_nth _ _ None Ex) in Hfc. subst x.
      destruct old as [d|]; [|contradiction]. cbn [file_agrees] in Fx. pose proof (agrees_length _ _ Fx) as Ld. rewrite Ld in *.
      unfold dstep. unfold rd at 1. rewrite Em, bind_Ok. unfold rd. rewrite Ef, bind_Ok.
      set (s := SOk k :: _).
      destruct (read_file_gen e Hmem h m l (length d) d s Im Hsz) as (h' & m' & r & E & St & Dn & _).
      assert (Hr : r = Done).
      { revert E. subst s. unfold read_file. cbn [sys_opens]. destruct (reserve e 0 h m _ false) as [[h1 m1]| | |]; try discriminate.
        rewrite bind_Ok. destruct (d_read (u ++ cc ++ [SOk 0]) h1 (mptr m1) (length d) 0 d) as [[[h2 r2] t2]| | |] eqn:Er; try discriminate.
        apply d_read_done in Er; [|lia|exact Fp|rewrite Nat.sub_0_r; exact R|rewrite Nat.sub_0_r; exact O]. destruct Er as [-> ->].
        rewrite bind_Ok, (d_close_ok cc [] Fc). cbn [fst]. destruct (resize e 0 h2 m1 _ true) as [[h3 m3]| | |]; try discriminate.
        rewrite bind_Ok. intro X. injection X as _ _ <-. reflexivity. }
      subst r. rewrite E, bind_Ok. destruct (Dn eq_refl) as [Im' _]. rewrite firstn_all in Im'.
      rewrite wr_put by (rewrite (s_len _ _ _ _ _ I); exact Hi). rewrite bind_Ok. eexists. split; [reflexivity|].
      cbn [dspec_step]. unfold file_of. rewrite (nth_error_nth _ _ None Ex). split; [|exact F]. cbn [fst].
      eapply (sinv_set e h0 Hc); [exact I|exact Em|exact Im|exact (Step_Step0 _ _ _ _ St)|exact Im'|exact Fx].
  Qed.
  Lemma drun_ok ops : forall st sp, DInv st sp -> dops_pre h0 sp ops -> exists st', drun e st ops = Ok st' /\ DInv st' (dspec_run h0 sp ops).
  Proof.
    induction ops as [|o t IH]; intros st sp I P; cbn [drun dspec_run]; [eauto|]. destruct P as [P Pt].
    destruct (dstep_ok st sp o I P) as (st1 & E & I1). rewrite E, bind_Ok. apply IH; assumption.
  Qed.
End Hist.
