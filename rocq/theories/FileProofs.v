(** * FileProofs *)
From Verif Require Import Base StreamModel FileModel FileSpec.
From Coq Require Import ZArith Lia.

Lemma fwrite_loop_spec : forall fuel l bw f f' r,
  fwrite_loop fuel l bw f = Ok (f', r) ->
  exists c u,
    c <= length l /\ f_out f' = f_out f ++ firstn c l /\ f_in f' = f_in f /\ f_exc f' = f_exc f /\
    f_sched f = u ++ f_sched f' /\
    ((c = length l /\ r = Val (bw + c) /\ f_state f' = f_state f /\ Forall progress u) \/
     (c < length l /\ exists v x, u = v ++ [x] /\ Forall progress v /\ ~ progress x /\
        f_state f' = Z.lor (f_state f) (stop_bits x) /\
        (if (Z.land (f_exc f) (stop_bits x) =? 0)%Z then r = Val (bw + c) else exists e, r = Thrown e))).
Proof.
  induction fuel; intros l bw f f' r H; [discriminate|].
  cbn [fwrite_loop] in H. destruct l as [|b l].
  - injection H as H1 H2. subst. exists 0, []. rewrite app_nil_r, Nat.add_0_r.
    repeat split; try reflexivity. left. repeat split; try reflexivity. constructor.
  - set (L := b :: l) in *. unfold iobind at 1 in H. unfold sys_write in H.
    destruct f as [st ex out inp sched]. cbn [f_sched f_state f_exc f_out f_in] in *.
    destruct sched as [|q sched]; [discriminate|].
    destruct q as [k| | |]; cbn [bind] in H.
    + destruct (min k (length L)) as [|c] eqn:Ec.
      * assert (k = 0) by (unfold L in Ec; cbn in Ec; destruct k; [reflexivity|discriminate]). subst k.
        unfold iobind, f_fail in H. cbn [bind f_exc f_state f_out f_in f_sched] in H.
        exists 0, [SOk 0].
        destruct (Z.land ex (Z.lor eofbit failbit) =? 0)%Z eqn:E; injection H as H1 H2; subst f' r;
          cbn [f_sched f_state f_exc f_out f_in]; cbn [firstn]; rewrite app_nil_r.
        all: split; [lia|]; split; [reflexivity|]; split; [reflexivity|]; split; [reflexivity|]; split; [reflexivity|].
        all: right; split; [unfold L; cbn; lia|]; exists [], (SOk 0); split; [reflexivity|]; split; [constructor|].
        all: split; [cbn; lia|]; split; [reflexivity|]; unfold stop_bits; rewrite E.
        -- rewrite Nat.add_0_r; reflexivity.
        -- eexists; reflexivity.
      * apply IHfuel in H. destruct H as (c' & u & Hc & Ho & Hi & Hx & Hs & Hr).
        cbn [f_sched f_state f_exc f_out f_in] in *.
        assert (S c <= length L) by lia.
        rewrite skipn_length in *.
        exists (S c + c'), (SOk k :: u).
        split; [lia|].
        split. { rewrite Ho, <- app_assoc. f_equal.
          rewrite <- (firstn_skipn (S c) L) at 3. rewrite firstn_app.
          rewrite (firstn_all2 (firstn (S c) L)) by (rewrite firstn_length; lia).
          rewrite firstn_length. replace (S c + c' - min (S c) (length L)) with c' by lia. reflexivity. }
        split; [assumption|]. split; [assumption|]. split; [rewrite Hs; reflexivity|].
        assert (progress (SOk k)) by (cbn; lia).
        destruct Hr as [(-> & -> & Hst & HF)|(Hlt & v & x & -> & HF & Hx' & Hst & Hr)].
        -- left. split; [lia|]. split; [f_equal; lia|]. split; [assumption|]. constructor; assumption.
        -- right. split; [lia|]. exists (SOk k :: v), x. split; [reflexivity|]. split; [constructor; assumption|].
           split; [assumption|]. split; [assumption|].
           destruct (_ =? 0)%Z; [rewrite Hr; f_equal; lia|assumption].
    + apply IHfuel in H. destruct H as (c' & u & Hc & Ho & Hi & Hx & Hs & Hr).
      cbn [f_sched f_state f_exc f_out f_in] in *.
      exists c', (SIntr :: u). split; [assumption|]. split; [assumption|]. split; [assumption|].
      split; [assumption|]. split; [rewrite Hs; reflexivity|].
      destruct Hr as [(-> & -> & Hst & HF)|(Hlt & v & x & -> & HF & Hx' & Hst & Hr)].
      * left. split; [reflexivity|]. split; [reflexivity|]. split; [assumption|]. constructor; [exact I|assumption].
      * right. split; [assumption|]. exists (SIntr :: v), x. split; [reflexivity|]. split; [constructor; [exact I|assumption]|].
        split; [assumption|]. split; assumption.
    + injection H as H1 H2. subst f' r. cbn [f_sched f_state f_exc f_out f_in].
      exists 0, [SAgain]. cbn [firstn]. rewrite app_nil_r.
      split; [lia|]. split; [reflexivity|]. split; [reflexivity|]. split; [reflexivity|]. split; [reflexivity|].
      right. split; [unfold L; cbn; lia|]. exists [], SAgain. split; [reflexivity|]. split; [constructor|].
      split; [cbn; tauto|]. cbn [stop_bits]. rewrite Z.lor_0_r, Z.land_0_r. split; [reflexivity|].
      cbn. f_equal. lia.
    + unfold iobind, f_fail in H. cbn [bind f_exc f_state f_out f_in f_sched] in H.
      exists 0, [SErr].
      destruct (Z.land ex failbit =? 0)%Z eqn:E; injection H as H1 H2; subst f' r;
        cbn [f_sched f_state f_exc f_out f_in]; cbn [firstn]; rewrite app_nil_r.
      all: split; [lia|]; split; [reflexivity|]; split; [reflexivity|]; split; [reflexivity|]; split; [reflexivity|].
      all: right; split; [unfold L; cbn; lia|]; exists [], SErr; split; [reflexivity|]; split; [constructor|].
      all: split; [cbn; tauto|]; split; [reflexivity|]; unfold stop_bits; rewrite E.
      * rewrite Nat.add_0_r; reflexivity.
      * eexists; reflexivity.
Qed.

(** Enough accepted bytes: the write completes. *)
Lemma fwrite_loop_complete : forall u fuel l bw f t,
  f_sched f = u ++ t -> Forall progress u -> length l <= offered u -> length u < fuel ->
  exists f', fwrite_loop fuel l bw f = Ok (f', Val (bw + length l)).
Proof.
  induction u as [|q u IH]; intros fuel l bw f t Hs HF Ho Hfuel.
  - cbn in Ho. destruct l; [|cbn in Ho; lia]. destruct fuel; [lia|]. cbn [fwrite_loop].
    exists f. unfold ret. cbn [length]. rewrite Nat.add_0_r. reflexivity.
  - destruct fuel; [cbn in Hfuel; lia|]. inversion HF as [|? ? Hq HF']; subst.
    destruct l as [|b l].
    { exists f. cbn. rewrite Nat.add_0_r. reflexivity. }
    cbn [fwrite_loop]. unfold iobind at 1, sys_write. rewrite Hs. cbn [app]. cbn [length] in Hfuel.
    destruct q as [k| | |]; cbn in Hq; try contradiction; cbn [bind].
    + cbn [offered] in Ho.
      destruct (min k (length (b :: l))) as [|c] eqn:Ec; [cbn in Ec; destruct k; [lia|discriminate]|].
      edestruct (IH fuel (skipn (S c) (b :: l)) (bw + S c)) as [f' Hf'].
      3:{ rewrite skipn_length. cbn [length] in *. lia. }
      3:{ lia. }
      2:{ assumption. }
      2:{ exists f'. rewrite Hf'. do 3 f_equal. rewrite skipn_length. cbn [length] in *. lia. }
      reflexivity.
    + cbn [offered] in Ho. edestruct (IH fuel (b :: l) bw) as [f' Hf'].
      2:{ assumption. } 2:{ assumption. } 2:{ lia. } 2:{ exists f'. exact Hf'. } reflexivity.
Qed.

Lemma fread_retry_spec : forall fuel n f f' r,
  fread_retry fuel n f = Ok (f', r) ->
  exists v x, f_sched f = (v ++ [x]) ++ f_sched f' /\ Forall (eq SIntr) v /\
    f_out f' = f_out f /\ f_exc f' = f_exc f /\ f_state f' = f_state f /\
    match x with
    | SOk k => r = Val (Got (firstn (min (S k) n) (f_in f))) /\ f_in f' = skipn (min (S k) n) (f_in f)
    | SAgain => r = Val Again /\ f_in f' = f_in f
    | SErr => r = Val Err /\ f_in f' = f_in f
    | SIntr => False
    end.
Proof.
  induction fuel; intros n f f' r H; [discriminate|].
  cbn [fread_retry] in H. unfold iobind, sys_read in H.
  destruct f as [st ex out inp sched]. cbn [f_sched f_state f_exc f_out f_in] in *.
  destruct sched as [|q sched]; [discriminate|].
  destruct q as [k| | |]; cbn [bind] in H.
  - injection H as H1 H2. subst. exists [], (SOk k). cbn [app f_sched f_state f_exc f_out f_in].
    repeat split; try reflexivity. constructor.
  - apply IHfuel in H. destruct H as (v & x & Hs & HF & H1 & H2 & H3 & H4).
    cbn [app f_sched f_state f_exc f_out f_in] in *.
    exists (SIntr :: v), x. split; [rewrite Hs; reflexivity|]. split; [constructor; [reflexivity|assumption]|].
    split; [assumption|]. split; [assumption|]. split; assumption.
  - injection H as H1 H2. subst. exists [], SAgain. cbn [app f_sched f_state f_exc f_out f_in].
    repeat split; try reflexivity. constructor.
  - injection H as H1 H2. subst. exists [], SErr. cbn [app f_sched f_state f_exc f_out f_in].
    repeat split; try reflexivity. constructor.
Qed.

Lemma freadsome_spec : forall n f f' r,
  freadsome n f = Ok (f', r) ->
  exists d v x, f_in f = d ++ f_in f' /\ length d <= n /\ f_out f' = f_out f /\ f_exc f' = f_exc f /\
    f_sched f = (v ++ [x]) ++ f_sched f' /\ Forall (eq SIntr) v /\
    match x with
    | SOk k =>
        length d = min (min (S k) n) (length (f_in f)) /\
        (d = [] -> f_state f' = Z.lor (f_state f) (Z.lor eofbit failbit) /\
                   (if (Z.land (f_exc f) (Z.lor eofbit failbit) =? 0)%Z then r = Val [] else r = Thrown stream_bounds)) /\
        (d <> [] -> f_state f' = f_state f /\ r = Val d)
    | SAgain => d = [] /\ f_state f' = f_state f /\ r = Val []
    | SErr => d = [] /\ f_state f' = Z.lor (f_state f) failbit /\
              (if (Z.land (f_exc f) failbit =? 0)%Z then r = Val [] else r = Thrown file_exception)
    | SIntr => False
    end.
Proof.
  intros n f f' r H. unfold freadsome in H. unfold iobind at 1 in H.
  destruct (fread_retry (S (length (f_sched f))) n f) as [[g q]| | |] eqn:E; try discriminate.
  apply fread_retry_spec in E. destruct E as (v & x & Hs & HF & H1 & H2 & H3 & H4). cbn [bind] in H.
  assert (Hfail : forall b e, (_ <~ f_fail b e ;; ret (@nil Z)) g = Ok (f', r) ->
     f_in f' = f_in g /\ f_out f' = f_out g /\ f_exc f' = f_exc g /\ f_sched f' = f_sched g /\
     f_state f' = Z.lor (f_state g) b /\ (if (Z.land (f_exc g) b =? 0)%Z then r = Val [] else r = Thrown e)).
  { intros b e Hf. unfold iobind, f_fail in Hf. destruct (_ =? 0)%Z; cbn [bind] in Hf; injection Hf as Ha Hb; subst;
      cbn; auto 10. }
  destruct x as [k| | |]; [| contradiction | |].
  - destruct H4 as [-> H4].
    pose proof (firstn_length (min (S k) n) (f_in f)) as HL.
    destruct (firstn (min (S k) n) (f_in f)) as [|b d] eqn:Ed.
    + apply Hfail in H. destruct H as (A1 & A2 & A3 & A4 & A5 & A6).
      exists [], v, (SOk k). rewrite A1, A2, A3, A4, H4. cbn [app length].
      split. { rewrite <- (firstn_skipn (min (S k) n) (f_in f)) at 1. rewrite Ed. reflexivity. }
      split; [lia|]. split; [assumption|]. split; [assumption|]. split; [assumption|]. split; [assumption|].
      split; [exact HL|]. split; [|congruence]. intros _. rewrite A5, H3.
      split; [reflexivity|]. rewrite H2 in A6. exact A6.
    + injection H as Ha Hb. subst f' r. exists (b :: d), v, (SOk k).
      rewrite H4. split. { rewrite <- Ed. symmetry. apply firstn_skipn. }
      split; [lia|]. split; [assumption|]. split; [assumption|]. split; [assumption|]. split; [assumption|].
      split; [exact HL|]. split; [congruence|]. intros _. auto.
  - destruct H4 as [-> H4]. injection H as Ha Hb. subst f' r.
    exists [], v, SAgain. cbn [app length]. split; [congruence|]. split; [lia|]. auto 10.
  - destruct H4 as [-> H4]. apply Hfail in H. destruct H as (A1 & A2 & A3 & A4 & A5 & A6).
    exists [], v, SErr. rewrite A1, A2, A3, A4, H4. cbn [app length].
    split; [reflexivity|]. split; [lia|]. split; [assumption|]. split; [assumption|]. split; [assumption|]. split; [assumption|].
    split; [reflexivity|]. rewrite A5, H3. split; [reflexivity|]. rewrite H2 in A6. exact A6.
Qed.

Lemma buf_store_ok : forall pre d0 d buf post, buf = pre ++ d0 ++ post -> length d0 = length d ->
  buf_store buf (length pre) d = Some (pre ++ d ++ post).
Proof.
  intros pre d0 d buf post -> HL. unfold buf_store. rewrite !app_length.
  destruct (Nat.leb_spec (length pre + length d) (length pre + (length d0 + length post))); [|lia].
  f_equal. rewrite firstn_app, firstn_all, Nat.sub_diag. cbn [firstn]. rewrite app_nil_r. do 2 f_equal.
  rewrite app_assoc, skipn_app. rewrite skipn_all2 by (rewrite app_length; lia).
  rewrite app_length, HL, Nat.sub_diag. reflexivity.
Qed.

Lemma fread_loop_stop : forall fuel n br f buf f' buf' r, f_state f <> 0%Z ->
  fread_loop fuel n br (f, buf) = Ok ((f', buf'), r) -> f' = f /\ buf' = buf /\ r = Val br.
Proof.
  intros fuel n br f buf f' buf' r Hne H. destruct fuel; [discriminate|]. cbn [fread_loop] in H.
  unfold f_good in H. apply Z.eqb_neq in Hne. rewrite Hne, andb_false_r in H. injection H as H1 H2 H3. auto.
Qed.

(** What a read leaves, whether it returns or throws. *)
Lemma fread_loop_spec : forall fuel n br f pre mid post f' buf' r,
  length pre = br -> br + length mid = n ->
  fread_loop fuel n br (f, pre ++ mid ++ post) = Ok ((f', buf'), r) ->
  exists d rest v,
    f_in f = d ++ f_in f' /\ length d + length rest = length mid /\ buf' = pre ++ (d ++ rest) ++ post /\
    rest = skipn (length d) mid /\
    f_out f' = f_out f /\ f_exc f' = f_exc f /\ f_sched f = v ++ f_sched f' /\
    (rest <> [] -> f_state f' <> 0%Z) /\
    (f_state f = 0%Z -> f_state f' <> 0%Z ->
       (In SErr v /\ f_state f' = failbit) \/ (f_in f' = [] /\ f_state f' = Z.lor eofbit failbit /\ rest <> [])) /\
    match r with
    | Val c => c = br + length d
    | Thrown _ => f_state f = 0%Z /\ f_state f' <> 0%Z /\ f_exc f <> 0%Z
    end.
Proof.
  induction fuel; intros n br f pre mid post f' buf' r Hpre Hn H; [discriminate|].
  cbn [fread_loop] in H. destruct (Nat.ltb_spec br n) as [Hlt|Hge]; cbn [andb] in H.
  2:{ injection H as H1 H2 H3. subst f' buf' r. destruct mid; [|cbn in Hn; lia].
      exists [], [], []. cbn [app length skipn].
      repeat split; try reflexivity; intros; try congruence; try lia. }
  destruct (f_good f) eqn:G.
  2:{ injection H as H1 H2 H3. subst f' buf' r. unfold f_good in G. apply Z.eqb_neq in G.
      exists [], mid, []. cbn [app length skipn].
      repeat split; try reflexivity; intros; try congruence; try lia. }
  unfold f_good in G. apply Z.eqb_eq in G.
  destruct (freadsome (n - br) f) as [[g q]| | |] eqn:E; try discriminate.
  apply freadsome_spec in E. destruct E as (d & v & x & Hin & Hld & Ho & Hx & Hs & HF & Hcase).
  destruct q as [d'|e].
  - assert (d' = d).
    { destruct x as [k| | |]; [|contradiction| |].
      - destruct Hcase as (_ & C1 & C2). destruct d as [|b d].
        + destruct (C1 eq_refl) as (_ & C). destruct (_ =? 0)%Z; congruence.
        + destruct C2 as [_ C]; [discriminate|]. congruence.
      - destruct Hcase as (-> & _ & C). congruence.
      - destruct Hcase as (-> & _ & C). destruct (_ =? 0)%Z; congruence. }
    subst d'.
    assert (Hmid : mid = firstn (length d) mid ++ skipn (length d) mid) by (symmetry; apply firstn_skipn).
    assert (Hlf : length (firstn (length d) mid) = length d) by (rewrite firstn_length; lia).
    rewrite <- Hpre in H at 1.
    rewrite (buf_store_ok pre (firstn (length d) mid) d _ (skipn (length d) mid ++ post)) in H;
      [|rewrite Hmid at 1; rewrite <- !app_assoc; reflexivity|assumption].
    rewrite app_assoc in H.
    pose proof H as Hloop.
    apply IHfuel in H.
    2:{ rewrite app_length, Hpre. reflexivity. }
    2:{ rewrite skipn_length. lia. }
    destruct H as (d2 & rest & v2 & A1 & A2 & A3 & A4 & A5 & A6 & A7 & A8 & A9 & A10).
    rewrite skipn_length in A2.
    exists (d ++ d2), rest, ((v ++ [x]) ++ v2).
    split; [rewrite Hin, A1, app_assoc; reflexivity|].
    split; [rewrite app_length; lia|].
    split; [rewrite A3, <- !app_assoc; reflexivity|].
    split. { rewrite A4, app_length. clear. revert mid. generalize (length d2) as k. intro k.
      induction (length d) as [|m IHm]; intros mid; [reflexivity|]. destruct mid; cbn; [destruct k; reflexivity|apply IHm]. }
    split; [congruence|]. split; [congruence|]. split; [rewrite Hs, A7, app_assoc; reflexivity|].
    split; [assumption|].
    assert (Hg : f_state g = 0%Z \/ (In SErr (v ++ [x]) /\ d = [] /\ f_state g = failbit) \/
                 (d = [] /\ f_in g = [] /\ f_state g = Z.lor eofbit failbit)).
    { destruct x as [k| | |]; [|contradiction| |].
      - destruct Hcase as (Hl & C1 & C2). destruct d as [|b d].
        + right; right. destruct (C1 eq_refl) as (C & _). split; [reflexivity|]. cbn [app length] in *.
          split; [|rewrite C, G; reflexivity]. rewrite <- Hin.
          destruct (f_in f); [reflexivity|]. cbn [length] in Hl. lia.
        + left. destruct C2 as [C _]; [discriminate|]. congruence.
      - left. destruct Hcase as (_ & C & _). congruence.
      - right; left. destruct Hcase as (-> & C & _). split; [apply in_or_app; right; left; reflexivity|].
        split; [reflexivity|]. rewrite C, G. reflexivity. }
    destruct (Z.eq_dec (f_state g) 0) as [Hg0|Hg0].
    + split.
      * intros _ Hne. destruct (A9 Hg0 Hne) as [[B1 B2]|B]; [left|right; exact B].
        split; [apply in_or_app; right; exact B1|exact B2].
      * destruct r as [c|e]; [rewrite app_length; lia|]. destruct A10 as (B1 & B2 & B3). rewrite <- Hx. auto.
    + destruct Hg as [Hg|Hg]; [contradiction|].
      destruct (fread_loop_stop _ _ _ _ _ _ _ _ Hg0 Hloop) as (-> & Eb & ->). clear Eb.
      assert (length d2 = 0) by (apply (f_equal (@length Z)) in A1; rewrite app_length in A1; lia).
      destruct d2; [|cbn in *; lia]. rewrite app_nil_r. cbn [length] in *.
      assert (rest <> []).
      { intro Er. rewrite Er in A2. cbn [length] in A2.
        assert (Hd : length d = 0) by (destruct Hg as [(_ & Hd & _)|(Hd & _)]; rewrite Hd; reflexivity). lia. }
      split; [|lia].
      intros _ _. destruct Hg as [(B1 & _ & B2)|(_ & B1 & B2)]; [left|right].
      * split; [apply in_or_app; left; exact B1|exact B2].
      * auto.
  - injection H as H1 H2 H3. subst g buf' r.
    assert (d = [] /\ f_state f' <> 0%Z /\ f_exc f <> 0%Z /\
            ((In SErr (v ++ [x]) /\ f_state f' = failbit) \/
             (f_in f' = [] /\ f_state f' = Z.lor eofbit failbit))) as (-> & B1 & B2 & B3).
    { destruct x as [k| | |]; [|contradiction| |].
      - destruct Hcase as (Hl & C1 & C2). destruct d as [|b d].
        2:{ destruct C2 as [_ C]; [discriminate|]. discriminate. }
        destruct (C1 eq_refl) as (C & C'). cbn [app length] in *. rewrite G in C.
        split; [reflexivity|]. split; [rewrite C; discriminate|].
        split. { intro E0. rewrite E0 in C'. cbn in C'. discriminate. }
        right. split; [|rewrite C; reflexivity]. rewrite <- Hin.
        destruct (f_in f); [reflexivity|]. cbn [length] in Hl. lia.
      - destruct Hcase as (_ & _ & C). discriminate.
      - destruct Hcase as (-> & C & C'). rewrite G in C. split; [reflexivity|]. split; [rewrite C; discriminate|].
        split. { intro E0. rewrite E0 in C'. cbn in C'. discriminate. }
        left. split; [apply in_or_app; right; left; reflexivity|]. rewrite C. reflexivity. }
    assert (mid <> []) by (intro; subst mid; cbn in Hn; lia).
    exists [], mid, (v ++ [x]). cbn [app length skipn] in *.
    split; [assumption|]. split; [reflexivity|]. split; [reflexivity|]. split; [reflexivity|].
    split; [assumption|]. split; [assumption|]. split; [assumption|]. split; [auto|].
    split; [|auto]. intros _ _. destruct B3 as [B3|[B3 B4]]; auto.
Qed.

(** Enough data and enough answers: the read completes. *)
Lemma freadsome_step : forall u n f t, f_sched f = u ++ t -> Forall no_error u ->
  0 < n <= length (f_in f) -> 0 < offered_read u ->
  exists f' d u', freadsome n f = Ok (f', Val d) /\ f_sched f' = u' ++ t /\ Forall no_error u' /\
    length u' < length u /\ f_in f = d ++ f_in f' /\ f_state f' = f_state f /\ length d <= n /\
    (length d = n \/ offered_read u = length d + offered_read u').
Proof.
  intros u n f t Hs HF Hn Ho.
  assert (Hret : forall u fuel f, f_sched f = u ++ t -> Forall no_error u -> length u <= fuel -> 0 < offered_read u ->
    exists u1 x u2, u = u1 ++ x :: u2 /\ Forall no_error u2 /\
      ((exists k, x = SOk k /\ offered_read u = S k + offered_read u2 /\
          fread_retry fuel n f = Ok (mkf (f_state f) (f_exc f) (f_out f) (skipn (min (S k) n) (f_in f)) (u2 ++ t),
                               Val (Got (firstn (min (S k) n) (f_in f))))) \/
       (x = SAgain /\ offered_read u = offered_read u2 /\
        fread_retry fuel n f = Ok (mkf (f_state f) (f_exc f) (f_out f) (f_in f) (u2 ++ t), Val Again)))).
  { clear. induction u as [|q u IH]; intros fuel f Hs HF Hf Ho; [cbn in Ho; lia|].
    inversion HF as [|? ? Hq HF']; subst. cbn [length] in Hf. destruct fuel; [lia|].
    cbn [fread_retry]. unfold iobind, sys_read. rewrite Hs. cbn [app].
    destruct q as [j| | |]; cbn [bind].
    - exists [], (SOk j), u. split; [reflexivity|]. split; [assumption|]. left. exists j. auto.
    - destruct (IH fuel (mkf (f_state f) (f_exc f) (f_out f) (f_in f) (u ++ t))) as (u1 & x & u2 & E1 & E2 & E3).
      + reflexivity. + assumption. + lia. + exact Ho.
      + exists (SIntr :: u1), x, u2. split; [rewrite E1; reflexivity|]. split; [assumption|].
        exact E3.
    - exists [], SAgain, u. split; [reflexivity|]. split; [assumption|]. right. auto.
    - exfalso. apply Hq. reflexivity. }
  destruct (Hret u (S (length (f_sched f))) f Hs HF) as (u1 & x & u2 & E1 & E2 & E3).
  - rewrite Hs, app_length. lia.
  - assumption.
  - assert (length u2 < length u) by (rewrite E1, app_length; cbn; lia).
    destruct E3 as [(k & -> & E3 & E4)|(-> & E3 & E4)].
    + assert (Hl : length (firstn (min (S k) n) (f_in f)) = min (S k) n) by (rewrite firstn_length; lia).
      eexists _, (firstn (min (S k) n) (f_in f)), u2. unfold freadsome, iobind at 1. rewrite E4. cbn [bind].
      destruct (firstn (min (S k) n) (f_in f)) as [|b d] eqn:Ed; [cbn [length] in Hl; lia|].
      split; [reflexivity|]. cbn [f_sched f_in f_state].
      split; [reflexivity|]. split; [assumption|]. split; [assumption|].
      split; [rewrite <- Ed; symmetry; apply firstn_skipn|]. split; [reflexivity|]. rewrite Hl, E3. lia.
    + eexists _, [], u2. unfold freadsome, iobind at 1. rewrite E4. cbn [bind].
      split; [reflexivity|]. cbn [f_sched f_in f_state app length].
      split; [reflexivity|]. split; [assumption|]. split; [assumption|]. split; [reflexivity|]. split; [reflexivity|].
      split; [lia|]. right. exact E3.
Qed.

Lemma fread_loop_complete : forall fuel u n br f pre mid post t,
  length pre = br -> br + length mid = n -> f_sched f = u ++ t -> Forall no_error u -> f_state f = 0%Z ->
  length mid <= length (f_in f) -> length mid <= offered_read u -> length u < fuel ->
  exists f' buf', fread_loop fuel n br (f, pre ++ mid ++ post) = Ok ((f', buf'), Val n) /\ f_state f' = 0%Z.
Proof.
  induction fuel; intros u n br f pre mid post t Hpre Hn Hs HF Hst Hin Hof Hfuel; [lia|].
  cbn [fread_loop]. destruct (Nat.ltb_spec br n) as [Hlt|Hge]; cbn [andb].
  2:{ exists f, (pre ++ mid ++ post). split; [do 3 f_equal; lia|assumption]. }
  unfold f_good. rewrite Hst. cbn [Z.eqb].
  destruct (freadsome_step u (n - br) f t Hs HF ltac:(lia) ltac:(lia)) as
    (g & d & u' & E1 & E2 & E3 & E4 & E5 & E6 & E7 & E8).
  rewrite E1.
  assert (Hmid : mid = firstn (length d) mid ++ skipn (length d) mid) by (symmetry; apply firstn_skipn).
  assert (Hlf : length (firstn (length d) mid) = length d) by (rewrite firstn_length; lia).
  subst br.
  rewrite (buf_store_ok pre (firstn (length d) mid) d _ (skipn (length d) mid ++ post));
      [|rewrite Hmid at 1; rewrite <- !app_assoc; reflexivity|assumption].
  rewrite app_assoc.
  apply (IHfuel u' n (length pre + length d) g (pre ++ d) (skipn (length d) mid) post t).
  - rewrite app_length. lia.
  - rewrite skipn_length. lia.
  - assumption.
  - assumption.
  - congruence.
  - rewrite skipn_length. rewrite E5, app_length in Hin. lia.
  - rewrite skipn_length. lia.
  - lia.
Qed.

(** Interruptions make no difference. *)
Lemma f_fail_un : forall b x f f' r, f_fail b x f = Ok (f', r) -> f_fail b x (uninterrupted f) = Ok (uninterrupted f', r).
Proof.
  intros b x f f' r H. unfold f_fail in *. cbn [uninterrupted f_exc f_state f_out f_in f_sched].
  destruct (_ =? 0)%Z; injection H as H1 H2; subst; reflexivity.
Qed.

Lemma fwrite_loop_un : forall fuel l bw f f' r fuel2,
  fwrite_loop fuel l bw f = Ok (f', r) -> length (f_sched (uninterrupted f)) < fuel2 ->
  fwrite_loop fuel2 l bw (uninterrupted f) = Ok (uninterrupted f', r).
Proof.
  induction fuel; intros l bw f f' r fuel2 H Hf; [discriminate|].
  destruct fuel2; [lia|]. cbn [fwrite_loop] in *. destruct l as [|b l].
  - injection H as H1 H2. subst. reflexivity.
  - unfold iobind at 1 in H. unfold iobind at 1. unfold sys_write in *.
    destruct f as [st ex out inp sched]. cbn [uninterrupted f_sched f_state f_exc f_out f_in] in *.
    destruct sched as [|q sched]; [discriminate|].
    destruct q as [k| | |]; cbn [bind filter is_intr negb] in *; cbn [length] in Hf.
    + destruct (min k (length (b :: l))) as [|c].
      * unfold iobind in *.
        match type of H with bind ?m _ = _ => destruct m as [[g q]| | |] eqn:E end; try discriminate. apply f_fail_un in E.
        unfold uninterrupted in E; cbn [f_sched f_state f_exc f_out f_in] in E. rewrite E. cbn [bind] in *.
        destruct q; injection H as H1 H2; subst; reflexivity.
      * eapply IHfuel in H; [exact H|]. cbn [uninterrupted f_sched]. lia.
    + change (mkf st ex out inp (filter (fun r0 => negb (is_intr r0)) sched)) with (uninterrupted (mkf st ex out inp sched)).
      eapply (IHfuel _ _ _ _ _ (S fuel2)) in H; [|cbn [uninterrupted f_sched]; lia].
      cbn [fwrite_loop] in H. exact H.
    + injection H as H1 H2. subst. reflexivity.
    + unfold iobind in *.
      match type of H with bind ?m _ = _ => destruct m as [[g q]| | |] eqn:E end; try discriminate. apply f_fail_un in E.
      unfold uninterrupted in E; cbn [f_sched f_state f_exc f_out f_in] in E. rewrite E. cbn [bind] in *.
      destruct q; injection H as H1 H2; subst; reflexivity.
Qed.

Lemma fread_retry_un : forall fuel n f f' r fuel2,
  fread_retry fuel n f = Ok (f', r) -> length (f_sched (uninterrupted f)) < fuel2 ->
  fread_retry fuel2 n (uninterrupted f) = Ok (uninterrupted f', r).
Proof.
  induction fuel; intros n f f' r fuel2 H Hf; [discriminate|].
  destruct fuel2; [lia|]. cbn [fread_retry] in *. unfold iobind at 1 in H. unfold iobind at 1. unfold sys_read in *.
  destruct f as [st ex out inp sched]. cbn [uninterrupted f_sched f_state f_exc f_out f_in] in *.
  destruct sched as [|q sched]; [discriminate|].
  destruct q as [k| | |]; cbn [bind filter is_intr negb length] in *.
  - injection H as H1 H2. subst. reflexivity.
  - eapply (IHfuel _ _ _ _ (S fuel2)) in H; [|cbn [uninterrupted f_sched]; lia].
    cbn [fread_retry] in H. exact H.
  - injection H as H1 H2. subst. reflexivity.
  - injection H as H1 H2. subst. reflexivity.
Qed.

Lemma freadsome_un : forall n f f' r,
  freadsome n f = Ok (f', r) -> freadsome n (uninterrupted f) = Ok (uninterrupted f', r).
Proof.
  intros n f f' r H. unfold freadsome in *. unfold iobind at 1 in H. unfold iobind at 1.
  destruct (fread_retry (S (length (f_sched f))) n f) as [[g q]| | |] eqn:E; try discriminate.
  eapply fread_retry_un in E; [rewrite E|lia]. cbn [bind] in *.
  assert (Hf : forall b e, (_ <~ f_fail b e ;; ret (@nil Z)) g = Ok (f', r) ->
     (_ <~ f_fail b e ;; ret (@nil Z)) (uninterrupted g) = Ok (uninterrupted f', r)).
  { intros b e H'. unfold iobind in *. destruct (f_fail b e g) as [[h q']| | |] eqn:E'; try discriminate.
    apply f_fail_un in E'. rewrite E'. cbn [bind] in *. destruct q'; injection H' as H1 H2; subst; reflexivity. }
  destruct q as [[[|b d]| | |]|x]; auto; injection H as H1 H2; subst; reflexivity.
Qed.

Lemma fread_loop_un : forall fuel n br f buf f' buf' r fuel2,
  fread_loop fuel n br (f, buf) = Ok ((f', buf'), r) -> length (f_sched (uninterrupted f)) < fuel2 ->
  fread_loop fuel2 n br (uninterrupted f, buf) = Ok ((uninterrupted f', buf'), r).
Proof.
  induction fuel; intros n br f buf f' buf' r fuel2 H Hf; [discriminate|].
  destruct fuel2; [lia|]. cbn [fread_loop] in *. change (f_good (uninterrupted f)) with (f_good f).
  destruct ((br <? n) && f_good f).
  - destruct (freadsome (n - br) f) as [[g q]| | |] eqn:E; try discriminate.
    pose proof E as E0. apply freadsome_un in E. rewrite E.
    destruct q as [d|x].
    + destruct (buf_store buf br d); [|discriminate]. eapply IHfuel; [exact H|].
      apply freadsome_spec in E. destruct E as (d' & v & x & _ & _ & _ & _ & E & _).
      apply (f_equal (@length sysres)) in E. rewrite !app_length in E. cbn [length] in E. lia.
    + injection H as H1 H2 H3. subst. reflexivity.
  - injection H as H1 H2 H3. subst. reflexivity.
Qed.
