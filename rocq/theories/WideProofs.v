(** * WideProofs: wide character edits refine their specification. *)
From Verif Require Import Base UtilModel UtilProofs Utf8Model Utf8Spec Utf8Proofs StoreModel StoreProofs VectorSpec MemModel MemSpec MemProofs MemRun
  StringModel StringSpec StringProofs StringRun WideModel WideSpec.
From Coq Require Import ZArith ZifyBool ZifyNat.
Local Open Scope Z_scope.

Lemma encode_all_app a b : encode_all (a ++ b) = encode_all a ++ encode_all b.
Proof. unfold encode_all. now rewrite map_app, concat_app. Qed.
Lemma encode_all_concat ls : encode_all (concat ls) = concat (map encode_all ls).
Proof. induction ls as [|x t IH]; [reflexivity|]. cbn [concat map]. now rewrite encode_all_app, IH. Qed.
Lemma map_repeat' {A B} (f : A -> B) x n : map f (repeat x n) = repeat (f x) n.
Proof. induction n as [|n IH]; [reflexivity|]. cbn [repeat map]. now rewrite IH. Qed.
Lemma encode_times l n : encode_all (times l n) = times (encode_all l) n.
Proof. unfold times. now rewrite encode_all_concat, map_repeat'. Qed.
Lemma encode_repeat c n : encode_all (repeat c n) = concat (repeat (encode c) n).
Proof. unfold encode_all. now rewrite map_repeat'. Qed.
Lemma encode_one c : encode_all [c] = encode c.
Proof. unfold encode_all. cbn [map concat]. now rewrite app_nil_r. Qed.
Lemma repeat_times (c : Z) n : repeat c (Z.to_nat n) = times [c] n.
Proof. unfold times. induction (Z.to_nat n) as [|k IH]; [reflexivity|]. cbn [repeat concat app]. now rewrite IH. Qed.
Lemma utf8_bytes_encode c : is_char c -> utf8_bytes c = Z.of_nat (length (encode c)).
Proof. intros H. rewrite encode_length by exact H. apply utf8_bytes_len. unfold is_char in H. lia. Qed.
Lemma split_len {A} (l : list A) n : (n <= length l)%nat -> l = firstn n l ++ skipn n l /\ length (firstn n l) = n.
Proof. intros H. split; [now rewrite firstn_skipn|]. rewrite firstn_length. lia. Qed.

Section Proofs.
  Variable e : env.
  Hypothesis Henv : good_env e.
  Hypothesis Hmem : enough_memory e.

  Lemma wput_ok v h m pre old post : is_char v -> Minv e h m (pre ++ old ++ post) -> (old <> [] -> 0 < mcap m) -> length old = length (encode v) ->
    exists h', wput h (padd (mptr m) (Z.of_nat (length pre))) v = Ok (h', padd (mptr m) (Z.of_nat (length (pre ++ map Some (encode v))))) /\
      Step h m h' m /\ Minv e h' m (pre ++ map Some (encode v) ++ post).
  Proof.
    intros V I Hc L. destruct (put_in e h m pre old post (map Some (encode v)) I Hc) as (h' & E & St & I' & _); [now rewrite map_length|].
    unfold wput. rewrite (utf8_out_ok v V). cbn [bind]. rewrite E. cbn [bind]. exists h'. split; [|split; assumption].
    rewrite padd_padd, app_length, map_length, Nat2Z.inj_add. reflexivity.
  Qed.
  (** Storing the characters [l] over as many bytes as they need. *)
  Lemma wput_all_ok l : forall h m pre old post, Forall is_char l -> Minv e h m (pre ++ old ++ post) -> (old <> [] -> 0 < mcap m) ->
    length old = length (encode_all l) ->
    exists h', wput_all h (padd (mptr m) (Z.of_nat (length pre))) l = Ok (h', padd (mptr m) (Z.of_nat (length (pre ++ map Some (encode_all l))))) /\
      Step h m h' m /\ Minv e h' m (pre ++ map Some (encode_all l) ++ post).
  Proof.
    induction l as [|v t IH]; intros h m pre old post F I Hc L.
    - destruct old; [|cbn in L; lia]. exists h. cbn [wput_all encode_all map concat]. rewrite app_nil_r. split; [reflexivity|]. split; [apply Step_refl|exact I].
    - inversion F as [|? ? V F']; subst. change (encode_all (v :: t)) with (encode v ++ encode_all t) in *.
      rewrite app_length in L. destruct (split_len old (length (encode v)) ltac:(lia)) as (Eo & Lo).
      remember (firstn (length (encode v)) old) as o1 eqn:E1. remember (skipn (length (encode v)) old) as o2 eqn:E2.
      assert (L2 : length o2 = length (encode_all t)) by (rewrite E2, skipn_length; lia).
      rewrite Eo, <- app_assoc in I.
      destruct (wput_ok v h m pre o1 (o2 ++ post) V I) as (h1 & F1 & S1 & I1); [|exact Lo|].
      { intros N. apply Hc. rewrite Eo. destruct o1; [congruence|discriminate]. }
      cbn [wput_all]. rewrite F1. cbn [bind]. rewrite app_assoc in I1.
      destruct (IH h1 m (pre ++ map Some (encode v)) o2 post F' I1) as (h2 & F2 & S2 & I2); [|exact L2|].
      { intros N. apply Hc. rewrite Eo. destruct o1; [exact N|discriminate]. }
      exists h2. rewrite map_app, F2. rewrite <- !app_assoc in *. split; [reflexivity|]. split; [eapply Step_trans; eauto|exact I2].
  Qed.
  Lemma wfill_n_all v n : forall h dst, wfill_n h dst v n = wput_all h dst (repeat v n).
  Proof.
    induction n as [|n IH]; intros h dst; cbn [wfill_n wput_all repeat]; [reflexivity|].
    destruct (wput h dst v) as [[h1 d1]| | |]; cbn [bind]; [apply IH|reflexivity..].
  Qed.
  Lemma wput_all_app a b : forall h dst, wput_all h dst (a ++ b) = (' (h, dst) <- wput_all h dst a ;; wput_all h dst b).
  Proof.
    induction a as [|v t IH]; intros h dst; [reflexivity|]. cbn [app wput_all].
    destruct (wput h dst v) as [[h1 d1]| | |]; cbn [bind]; [apply IH|reflexivity..].
  Qed.
  Lemma wput_times_all l n : forall h dst, wput_times h dst l n = wput_all h dst (concat (repeat l n)).
  Proof.
    induction n as [|n IH]; intros h dst; cbn [wput_times repeat concat]; [reflexivity|].
    rewrite wput_all_app. destruct (wput_all h dst l) as [[h1 d1]| | |]; cbn [bind]; [apply IH|reflexivity..].
  Qed.

  (** Both inserts: room for the encoding of [w], then [w]. *)
  Definition wins (h : heap) (m : mb) (ipo n : Z) (w : list Z) : outcome (heap * mb) :=
    let ip := clamp m ipo in
    ' (h, m) <- insert e 1 h m ip n ;;
    ' (h, _) <- wput_all h (padd (mptr m) ip) w ;;
    terminate h m.
  Lemma wins_ok h m l ip w : Minv e h m l -> 0 <= ip -> Forall is_char w -> Z.of_nat (length l) + esize w < 2 ^ 31 ->
    ins_moves (Z.of_nat (length l)) ip (esize w) ->
    exists h' m', wins h m ip (esize w) w = Ok (h', m') /\ Step h m h' m' /\
      Minv e h' m' (upto ip l ++ map Some (encode_all w) ++ from ip l) /\ Nul h' m'.
  Proof.
    intros I Hip F Hb G. unfold wins. unfold esize in *.
    destruct (ins_gen e Henv Hmem h m l ip _ I Hip (Zle_0_nat _) Hb G) as (h1 & m1 & x & E & St & I1 & Lx & C1 & Cl).
    rewrite E. cbn [bind]. rewrite Cl.
    destruct (wput_all_ok w h1 m1 _ x _ F I1) as (h2 & E2 & St2 & I2); [intros _; lia|lia|].
    rewrite E2. cbn [bind]. destruct (fin e h2 m1 _ I2) as (h3 & E3 & St3 & I3 & Z3).
    { rewrite !app_length, map_length. pose proof (upto_from_len ip l Hip). lia. }
    rewrite E3. exists h3, m1. split; [reflexivity|]. split; [exact (Step_trans _ _ _ _ _ _ St (Step_trans _ _ _ _ _ _ St2 St3))|]. auto.
  Qed.
  Lemma esize_times l n : 0 <= n -> esize (times l n) = esize l * n.
  Proof. intros H. unfold esize. rewrite encode_times. now apply times_lengthZ. Qed.
  Lemma forall_times l n : Forall is_char l -> Forall is_char (times l n).
  Proof.
    intros F. unfold times. induction (Z.to_nat n) as [|k IH]; [constructor|]. cbn [repeat concat]. apply Forall_app. auto.
  Qed.
  Lemma wfill_wins h m ip n c : is_char c -> 0 <= n -> esize (times [c] n) < 2 ^ 31 ->
    str_insert_wfill e h m ip n c = wins h m ip (esize (times [c] n)) (times [c] n).
  Proof.
    intros V Hn Hb. unfold str_insert_wfill, wins. rewrite utf8_bytes_encode by exact V.
    assert (E : n * Z.of_nat (length (encode c)) = esize (times [c] n)).
    { rewrite esize_times by exact Hn. unfold esize. rewrite encode_one. lia. }
    assert (0 <= esize (times [c] n)) by (unfold esize; lia).
    rewrite E, u64_small by lia. destruct (insert e 1 h m (clamp m ip) (esize (times [c] n))) as [[h1 m1]| | |]; cbn [bind]; try reflexivity.
    now rewrite wfill_n_all, repeat_times.
  Qed.
  Lemma wide_wins h m ip l n : Forall is_char l -> 0 <= n -> esize l < 2 ^ 31 -> esize (times l n) < 2 ^ 31 ->
    str_insert_wide e h m ip l n = wins h m ip (esize (times l n)) (times l n).
  Proof.
    intros F Hn Hl Hb. unfold str_insert_wide, wins. cbv zeta. rewrite bytes_all_ok by exact F. fold (esize l).
    assert (0 <= esize l) by (unfold esize; lia). assert (0 <= esize (times l n)) by (unfold esize; lia).
    rewrite (u64_small (esize l)) by lia.
    assert (E : n * esize l = esize (times l n)) by (rewrite esize_times by exact Hn; lia).
    rewrite E, u64_small by lia.
    destruct (insert e 1 h m (clamp m ip) (esize (times l n))) as [[h1 m1]| | |]; cbn [bind]; try reflexivity.
    now rewrite wput_times_all.
  Qed.
End Proofs.

Lemma wbytes_esize l n : Z.of_nat (length (wbytes l n)) = esize (times l n).
Proof. unfold wbytes, esize. now rewrite map_length, encode_times. Qed.
Lemma wbytes_eq l n : wbytes l n = map Some (encode_all (times l n)).
Proof. unfold wbytes. now rewrite encode_times. Qed.

Section Run.
  Variable e : env.
  Hypothesis Henv : good_env e.
  Hypothesis Hmem : enough_memory e.
  Variable h0 : heap.
  Hypothesis Hc : callers h0.
  Variable nul : ptr.
  Hypothesis Hnul : NulBlk nul h0.

  Lemma at_end {X} (l : list X) : upto (Z.of_nat (length l)) l = l /\ from (Z.of_nat (length l)) l = [].
  Proof. unfold upto, from. rewrite Z.min_id, Nat2Z.id, firstn_all, skipn_all. auto. Qed.
  Lemma wappend_ok h m l n c : Minv e h m l -> is_char c -> 0 <= n -> Z.of_nat (length l) + esize (times [c] n) < 2 ^ 31 ->
    exists h' m', str_append_wfill e h m n c = Ok (h', m') /\ Step h m h' m' /\ Minv e h' m' (l ++ wbytes [c] n) /\ Nul h' m'.
  Proof.
    intros I V Hn Hb. unfold str_append_wfill. pose proof I as ((S & _) & _). rewrite S.
    rewrite wfill_wins by (auto; lia).
    destruct (wins_ok e Henv Hmem h m l (Z.of_nat (length l)) (times [c] n) I ltac:(lia)) as (h' & m' & E & St & I' & Z'); auto.
    { apply forall_times. now constructor. }
    { right; left; lia. }
    exists h', m'. split; [exact E|]. split; [exact St|]. split; [|exact Z']. destruct (at_end l) as (E1 & E2). rewrite E1, E2, app_nil_r in I'.
    now rewrite wbytes_eq.
  Qed.

  Lemma wstep_ok h ms ss o : TInv e h0 h ms ss -> wop_pre h0 ss o -> wcareful_op h0 ss ms o ->
    exists h' ms', wstep e nul (h, ms) o = Ok (h', ms') /\ TInv e h0 h' ms' (wspec_step h0 ss o) /\ (NoLeak h ms -> NoLeak h' ms').
  Proof.
    intros T P C. destruct o as [o|i ip n c|i ip l n|i n c|i c|i n c]; cbn [wstep wspec_step wop_pre wcareful_op] in *.
    - exact (sstep_ok e Henv Hmem h0 Hc nul Hnul h ms ss o T P C).
    - destruct P as (Hi & Hip & Hn & V & Hb & G). rewrite newlen_put in Hb by exact Hi. unfold fits in Hb. rewrite !app_length, !Nat2Z.inj_add in Hb.
      rewrite wbytes_esize in *.
      apply (on_str e h0 Hc nul Hnul h ms ss i _ _ T Hi). intros m l Em Im Zm A Ll Lb B. rewrite Ll in G.
      pose proof (upto_from_len ip (get ss i) ltac:(unfold is_pos in Hip; lia)) as Q. rewrite (agrees_length _ _ A) in Q.
      eapply done_intro; [|apply agrees_app; [exact (upto_agrees ip _ _ A)|apply agrees_app; [apply agrees_refl|exact (from_agrees ip _ _ A)]]|].
      2:{ rewrite !app_length, !Nat2Z.inj_add, wbytes_esize. lia. }
      rewrite wfill_wins by (auto; lia). rewrite wbytes_eq. apply wins_ok; auto; try (unfold is_pos in Hip; lia).
      apply forall_times. now constructor.
    - destruct P as (Hi & Hip & Hn & F & Hl & Hb & G). rewrite newlen_put in Hb by exact Hi. unfold fits in Hb. rewrite !app_length, !Nat2Z.inj_add in Hb.
      rewrite wbytes_esize in *. fold (esize l) in Hl.
      apply (on_str e h0 Hc nul Hnul h ms ss i _ _ T Hi). intros m x Em Im Zm A Ll Lb B. rewrite Ll in G.
      pose proof (upto_from_len ip (get ss i) ltac:(unfold is_pos in Hip; lia)) as Q. rewrite (agrees_length _ _ A) in Q.
      eapply done_intro; [|apply agrees_app; [exact (upto_agrees ip _ _ A)|apply agrees_app; [apply agrees_refl|exact (from_agrees ip _ _ A)]]|].
      2:{ rewrite !app_length, !Nat2Z.inj_add, wbytes_esize. lia. }
      rewrite wide_wins by (auto; lia). rewrite wbytes_eq. apply wins_ok; auto; try (unfold is_pos in Hip; lia).
      now apply forall_times.
    - destruct P as (Hi & Hn & V & Hb). rewrite newlen_put in Hb by exact Hi. unfold fits in Hb. rewrite app_length, Nat2Z.inj_add, wbytes_esize in Hb.
      apply (on_str e h0 Hc nul Hnul h ms ss i _ _ T Hi). intros m l Em Im Zm A Ll Lb B. unfold len in Ll.
      eapply done_intro; [|apply agrees_app; [exact A|apply agrees_refl]|].
      2:{ rewrite app_length, Nat2Z.inj_add, wbytes_esize. lia. }
      apply wappend_ok; auto. lia.
    - destruct P as (Hi & V & Hb). rewrite newlen_put in Hb by exact Hi. unfold fits in Hb. rewrite app_length, Nat2Z.inj_add, wbytes_esize in Hb.
      apply (on_str e h0 Hc nul Hnul h ms ss i _ _ T Hi). intros m l Em Im Zm A Ll Lb B. unfold len in Ll.
      eapply done_intro; [|apply agrees_app; [exact A|apply agrees_refl]|].
      2:{ rewrite app_length, Nat2Z.inj_add, wbytes_esize. lia. }
      unfold str_push_back_wide. apply wappend_ok; auto; lia.
    - destruct P as (Hi & Hn & V & Hb). rewrite newlen_put in Hb by exact Hi. unfold fits in Hb. rewrite wbytes_esize in Hb.
      apply (on_str e h0 Hc nul Hnul h ms ss i _ _ T Hi). intros m l Em Im Zm A Ll Lb B.
      eapply done_intro; [|apply agrees_refl|rewrite wbytes_esize; lia].
      unfold str_assign_wfill, str_clear.
      destruct (str_resize_ok e Hmem nul h m l 0 Im B ltac:(lia)) as (h1 & m1 & l1 & E & St & I1 & Z1 & L1 & _ & _).
      rewrite E. cbn [bind]. destruct l1; [|cbn in L1; lia].
      destruct (wappend_ok h1 m1 [] n c I1 V Hn) as (h2 & m2 & E2 & St2 & I2 & Z2); [cbn [length]; lia|].
      exists h2, m2. split; [exact E2|]. split; [eapply Step_trans; eauto|]. auto.
  Qed.

  Lemma wrun_tinv ops : forall h ms ss, TInv e h0 h ms ss -> wops_pre h0 ss ops -> wcareful e nul h0 ss (h, ms) ops ->
    exists h' ms', wrun e nul (h, ms) ops = Ok (h', ms') /\ TInv e h0 h' ms' (wspec_run h0 ss ops) /\ (NoLeak h ms -> NoLeak h' ms').
  Proof.
    induction ops as [|o t IH]; intros h ms ss T P Ca; [exists h, ms; split; [reflexivity|]; split; auto|].
    cbn [wops_pre wcareful snd] in *. destruct P as (P1 & P2). destruct Ca as (C1 & C2).
    destruct (wstep_ok h ms ss o T P1 C1) as (h1 & ms1 & E1 & T1 & N1).
    cbn [wrun wspec_run]. rewrite E1. cbn [bind].
    destruct (IH h1 ms1 _ T1 P2 (C2 _ E1)) as (h2 & ms2 & E2 & T2 & N2). exists h2, ms2. split; [exact E2|]. split; [exact T2|auto].
  Qed.
  Lemma wrun_correct k ops : wops_pre h0 (repeat [] k) ops -> wcareful e nul h0 (repeat [] k) (h0, repeat (str_nil nul) k) ops ->
    exists h ms, wrun e nul (h0, repeat (str_nil nul) k) ops = Ok (h, ms) /\
      Forall2 (sresult h) ms (wspec_run h0 (repeat [] k) ops) /\ firstn (length h0) h = h0 /\
      (forall b x, nth_error h b = Some x -> bkind x = Owned -> exists m o, In m ms /\ is_linked m = false /\ mptr m = Some (b, o)).
  Proof.
    intros P Ca. destruct (wrun_tinv ops _ _ _ (tinv_init e h0 nul Hnul k) P Ca) as (h & ms & E & T & NL). exists h, ms.
    split; [exact E|]. split; [eapply tinv_result; eauto|]. split; [eapply sinv_foreign; eauto using t_sinv|].
    intros b x Hx K. destruct (NL (noleak_init_str h0 Hc nul k) b) as (i & m & Ei & Eo); [exists x; auto|].
    unfold owner in Eo. unfold is_linked. destruct (mcap m =? 0) eqn:Cm; [discriminate|].
    destruct (mptr m) as [[c o]|] eqn:Pm; [|discriminate]. injection Eo as ->. exists m, o.
    split; [eapply nth_error_In; eauto|]. auto.
  Qed.
End Run.

(** ** Characters *)
Lemma upto_len_app {X} (a b : list X) : upto (Z.of_nat (length a)) (a ++ b) = a /\ from (Z.of_nat (length a)) (a ++ b) = b.
Proof.
  unfold upto, from. rewrite app_length. replace (Z.to_nat (Z.min (Z.of_nat (length a)) (Z.of_nat (length a + length b)))) with (length a) by lia.
  rewrite firstn_app, skipn_app, Nat.sub_diag, firstn_all, skipn_all. cbn [firstn skipn]. now rewrite app_nil_r.
Qed.
Definition enc_str (w : list Z) : list (option Z) := map Some (encode_all w).
Lemma enc_str_len w : Z.of_nat (length (enc_str w)) = esize w.
Proof. unfold enc_str, esize. now rewrite map_length. Qed.
Lemma enc_get ws i : get (map enc_str ws) i = enc_str (get ws i).
Proof. unfold get. exact (map_nth enc_str ws [] i). Qed.
Lemma enc_put ws i x : map enc_str (put ws i x) = put (map enc_str ws) i (enc_str x).
Proof. unfold put. rewrite map_app. cbn [map]. now rewrite firstn_map, skipn_map. Qed.
Lemma enc_ins w j x : enc_str (firstn j w ++ x ++ skipn j w) =
  upto (char_pos w j) (enc_str w) ++ enc_str x ++ from (char_pos w j) (enc_str w).
Proof.
  assert (E : enc_str w = enc_str (firstn j w) ++ enc_str (skipn j w)).
  { unfold enc_str. now rewrite <- map_app, <- encode_all_app, firstn_skipn. }
  unfold char_pos. fold (esize (firstn j w)). rewrite <- enc_str_len. rewrite E.
  destruct (upto_len_app (enc_str (firstn j w)) (enc_str (skipn j w))) as (-> & ->).
  unfold enc_str. now rewrite !encode_all_app, !map_app.
Qed.
Lemma enc_step h0 ws o : map enc_str (cspec_step ws o) = wspec_step h0 (map enc_str ws) (call_of ws o).
Proof.
  destruct o as [i j n c|i j l n|i n c|i c|i n c]; cbn [cspec_step call_of wspec_step]; rewrite enc_put, ?enc_get.
  - rewrite enc_ins, repeat_times. unfold enc_str at 2. now rewrite wbytes_eq.
  - rewrite enc_ins. unfold enc_str at 2. now rewrite wbytes_eq.
  - rewrite repeat_times, wbytes_eq. unfold enc_str. now rewrite encode_all_app, map_app.
  - rewrite wbytes_eq. unfold enc_str. now rewrite encode_all_app, map_app.
  - rewrite repeat_times, wbytes_eq. reflexivity.
Qed.
Lemma enc_run h0 ops : forall ws, map enc_str (cspec_run ws ops) = wspec_run h0 (map enc_str ws) (calls_of ws ops).
Proof. induction ops as [|o t IH]; intros ws; [reflexivity|]. cbn [cspec_run calls_of wspec_run]. now rewrite IH, (enc_step h0). Qed.
Lemma char_pos_le w j : 0 <= char_pos w j <= esize w.
Proof.
  assert (E : encode_all w = encode_all (firstn j w) ++ encode_all (skipn j w)) by now rewrite <- encode_all_app, firstn_skipn.
  unfold char_pos, esize. rewrite E, app_length. lia.
Qed.
Lemma len_enc ws i : len (map enc_str ws) i = esize (get ws i).
Proof. unfold len. now rewrite enc_get, enc_str_len. Qed.
Lemma enc_pre h0 ws o : (forall i, esize (get ws i) < 2 ^ 31) -> cop_pre ws o -> wop_pre h0 (map enc_str ws) (call_of ws o).
Proof.
  intros B P. pose proof (enc_step h0 ws o) as E.
  assert (Fi : forall i, esize (get (cspec_step ws o) i) < 2 ^ 31 -> fits (len (wspec_step h0 (map enc_str ws) (call_of ws o)) i)).
  { intros i H. rewrite <- E, len_enc. unfold fits. assert (0 <= esize (get (cspec_step ws o) i)) by (unfold esize; lia). lia. }
  assert (Po : forall i j, is_pos (char_pos (get ws i) j)).
  { intros i j. unfold is_pos. pose proof (char_pos_le (get ws i) j). specialize (B i). lia. }
  destruct o as [i j n c|i j l n|i n c|i c|i n c]; cbn [cop_pre wop_pre call_of] in *; rewrite map_length.
  - destruct P as (Hi & Hj & Hn & V & Hb & G). split; [exact Hi|]. split; [apply Po|]. split; [exact Hn|]. split; [exact V|].
    split; [exact (Fi i Hb)|]. rewrite len_enc, wbytes_esize, esize_times by exact Hn. exact G.
  - destruct P as (Hi & Hj & Hn & V & Hl & Hb & G). split; [exact Hi|]. split; [apply Po|]. split; [exact Hn|]. split; [exact V|].
    split; [exact Hl|]. split; [exact (Fi i Hb)|]. rewrite len_enc, wbytes_esize, esize_times by exact Hn. exact G.
  - destruct P as (Hi & Hn & V & Hb). split; [exact Hi|]. split; [exact Hn|]. split; [exact V|]. exact (Fi i Hb).
  - destruct P as (Hi & V & Hb). split; [exact Hi|]. split; [exact V|]. exact (Fi i Hb).
  - destruct P as (Hi & Hn & V & Hb). split; [exact Hi|]. split; [exact Hn|]. split; [exact V|]. exact (Fi i Hb).
Qed.
Lemma cop_target o : exists i, forall ws : list (list Z), (cop_pre ws o -> (i < length ws)%nat /\ esize (get (cspec_step ws o) i) < 2 ^ 31) /\
  (forall j, j <> i -> (i < length ws)%nat -> get (cspec_step ws o) j = get ws j).
Proof.
  destruct o as [i j n c|i j l n|i n c|i c|i n c]; exists i; intros ws; (split; [cbn [cop_pre]; tauto|]);
    intros k Hk Hi; cbn [cspec_step]; now apply get_put_other.
Qed.
Lemma cop_bound ws o : (forall i, esize (get ws i) < 2 ^ 31) -> cop_pre ws o -> forall i, esize (get (cspec_step ws o) i) < 2 ^ 31.
Proof.
  intros B P i. destruct (cop_target o) as (t & Ht). destruct (Ht ws) as (H1 & H2). destruct (H1 P) as (Hl & Hb).
  destruct (Nat.eq_dec i t) as [-> |N]; [exact Hb|]. rewrite (H2 i N Hl). apply B.
Qed.
Lemma enc_pres h0 ops : forall ws, (forall i, esize (get ws i) < 2 ^ 31) -> cops_pre ws ops -> wops_pre h0 (map enc_str ws) (calls_of ws ops).
Proof.
  induction ops as [|o t IH]; intros ws B P; [exact I|]. cbn [cops_pre calls_of wops_pre] in *. destruct P as (P1 & P2).
  split; [now apply enc_pre|]. rewrite <- (enc_step h0). apply IH; [now apply cop_bound|exact P2].
Qed.
Lemma calls_careful e nul h0 ops : forall ws ss s, wcareful e nul h0 ss s (calls_of ws ops).
Proof.
  induction ops as [|o t IH]; intros ws ss s; [exact I|]. cbn [calls_of wcareful]. split; [destruct o; exact I|intros; apply IH].
Qed.
Lemma Forall_parts {A} (P : A -> Prop) l n : Forall P l -> Forall P (firstn n l) /\ Forall P (skipn n l).
Proof. intros H. rewrite <- (firstn_skipn n l) in H. now apply Forall_app in H. Qed.
Lemma chars_step ws o : Forall (Forall is_char) ws -> cop_pre ws o -> Forall (Forall is_char) (cspec_step ws o).
Proof.
  intros F P. assert (G : forall i, Forall is_char (get ws i)).
  { intros i. unfold get. destruct (nth_in_or_default i ws []) as [H| ->]; [|constructor]. rewrite Forall_forall in F. now apply F. }
  assert (Pu : forall i x, Forall is_char x -> Forall (Forall is_char) (put ws i x)).
  { intros i x Hx. unfold put. apply Forall_app. split; [now apply Forall_parts|]. constructor; [exact Hx|now apply Forall_parts]. }
  assert (R : forall c n, is_char c -> Forall is_char (repeat c n)) by (intros c n V; apply Forall_forall; intros x Hx; apply repeat_spec in Hx; now subst).
  destruct o as [i j n c|i j l n|i n c|i c|i n c]; cbn [cspec_step cop_pre] in *; apply Pu; rewrite ?Forall_app.
  - split; [now apply Forall_parts|]. split; [apply R; tauto|now apply Forall_parts].
  - split; [now apply Forall_parts|]. split; [apply forall_times; tauto|now apply Forall_parts].
  - split; [apply G|apply R; tauto].
  - split; [apply G|]. constructor; [tauto|constructor].
  - apply R; tauto.
Qed.
Lemma chars_run ops : forall ws, Forall (Forall is_char) ws -> cops_pre ws ops -> Forall (Forall is_char) (cspec_run ws ops).
Proof. induction ops as [|o t IH]; intros ws F P; [exact F|]. cbn [cspec_run cops_pre] in *. apply IH; [apply chars_step|]; tauto. Qed.
Lemma agrees_some a : forall l, agrees (map Some a) l -> l = map Some a.
Proof.
  induction a as [|x t IH]; intros l H; inversion H; subst; [reflexivity|]. cbn [map]. f_equal; [|now apply IH].
  destruct H2 as [D|D]; [discriminate|now symmetry].
Qed.
Lemma repeat_nil_get {A} k i : get (repeat (@nil A) k) i = [].
Proof. unfold get. destruct (nth_in_or_default i (repeat (@nil A) k) []) as [H| ->]; [|reflexivity]. now apply repeat_spec in H. Qed.
