(** * StringProofs: string operations keep their text and their terminator. *)
From Verif Require Import Base UtilModel UtilProofs StoreModel StoreProofs VectorSpec MemModel MemSpec MemProofs MemRun StringModel StringSpec.
From Coq Require Import ZArith ZifyBool ZifyNat.
Local Open Scope Z_scope.

Lemma padd_0 p : padd p 0 = p.
Proof. destruct p as [[b o]|]; cbn [padd]; [now rewrite Z.add_0_r|reflexivity]. Qed.
Lemma padd_padd p a b : padd (padd p a) b = padd p (a + b).
Proof. destruct p as [[c o]|]; cbn [padd]; [now rewrite Z.add_assoc|reflexivity]. Qed.

(** Part of what could be read. *)
Lemma load_sub h p n l o k : load_n h p n = Ok l -> 0 <= o -> 0 <= k -> o + k <= n ->
  load_n h (padd p o) k = Ok (firstn (Z.to_nat k) (skipn (Z.to_nat o) l)).
Proof.
  intros E Ho Hk Hb. unfold load_n in *. destruct (Z.eqb_spec k 0) as [-> |Nk]; [reflexivity|].
  destruct (Z.eqb_spec n 0) as [-> |Nn]; [lia|]. destruct p as [[b q]|]; [|discriminate]. cbn [padd].
  destruct (rd h b) as [x| | |]; try discriminate. cbn [bind] in *.
  destruct (readable (bkind x)); [|discriminate]. cbn [andb] in *. unfold in_range in *.
  destruct ((0 <=? q) && (0 <=? n) && (q + n <=? Z.of_nat (length (bcells x)))) eqn:R; [|discriminate].
  injection E as <-. replace ((0 <=? q + o) && (0 <=? k) && (q + o + k <=? Z.of_nat (length (bcells x)))) with true by lia.
  f_equal. unfold slice. rewrite skipn_firstn_comm, firstn_firstn, skipn_skipn.
  replace (Z.to_nat o + Z.to_nat q)%nat with (Z.to_nat (q + o)) by lia. f_equal. lia.
Qed.

Section WithEnv.
  Variable e : env.
  Hypothesis Henv : good_env e.
  Hypothesis Hmem : enough_memory e.

  (** c_str()[size()] is zero. *)
  Definition Nul (h : heap) (m : mb) : Prop :=
    mptr m = None \/ load_n h (padd (mptr m) (msize m)) 1 = Ok [Some 0].
  Definition NulBlk (nul : ptr) (h : heap) : Prop :=
    exists b base, nul = Some (b, 0) /\ nth_error h b = Some (mkblk [Some 0] base Literal).

  Lemma Outside_step h m h' m' p n : Step0 h m h' m' -> Outside h m p n -> Outside h' m' p n.
  Proof.
    intros (A & B & C) [-> |(b & o & -> & N & L)]; [left; reflexivity|]. right. exists b, o.
    split; [reflexivity|]. split; [|lia]. intros E. exact (N (C b E L)).
  Qed.
  Lemma Outside_sub h m p n o k : Outside h m p n -> 0 <= o -> 0 <= k -> o + k <= n -> Outside h m (padd p o) k.
  Proof.
    intros [-> |(b & q & -> & N & L)] Ho Hk Hb; [left; lia|]. right. exists b, (q + o). cbn [padd]. auto.
  Qed.
  Lemma NulBlk_step nul h m h' m' l : NulBlk nul h -> Minv e h m l -> Step0 h m h' m' -> NulBlk nul h'.
  Proof.
    intros (b & base & -> & N) I (A & B & C). exists b, base. split; [reflexivity|].
    rewrite B; [exact N|apply nth_error_Some; congruence|]. intros E.
    destruct (Minv_owned e h m l b I E) as ((k & N' & K) & _). rewrite N in N'. injection N' as <-. discriminate.
  Qed.

  (** A block with room after its content. *)
  Lemma room h m l : Minv e h m l -> Z.of_nat (length l) + 1 <= mcap m ->
    exists b z r, mptr m = Some (b, 0) /\ nth_error h b = Some (mkblk (l ++ z :: r) (malloc_at e (mcap m)) Owned) /\
      Z.of_nat (length (l ++ z :: r)) = mcap m /\ 0 < mcap m <= 2 ^ 31 /\ owner m = Some b.
  Proof.
    intros (S & [(C & _)|O]) R; [lia|]. pose proof O as (Hc & b & r & P & N & L).
    destruct (Owning_owner e h m l O) as (b' & Ob & P' & _). rewrite P in P'. injection P' as <-.
    destruct r as [|z r]; [rewrite app_nil_r in L; lia|]. exists b, z, r. auto.
  Qed.
  Lemma nul_at h m b l r base : mptr m = Some (b, 0) -> nth_error h b = Some (mkblk (l ++ Some 0 :: r) base Owned) ->
    msize m = Z.of_nat (length l) -> Nul h m.
  Proof.
    intros P N S. right. rewrite P. cbn [padd]. rewrite S, Z.add_0_l.
    eapply (load_ok' h b _ _ 1 l [Some 0] r N); reflexivity.
  Qed.
  Lemma nul_room h m l : Minv e h m l -> Nul h m -> 0 < mcap m ->
    exists b r, mptr m = Some (b, 0) /\ nth_error h b = Some (mkblk (l ++ Some 0 :: r) (malloc_at e (mcap m)) Owned) /\
      Z.of_nat (length (l ++ Some 0 :: r)) = mcap m /\ 0 < mcap m <= 2 ^ 31 /\ owner m = Some b.
  Proof.
    intros ((S & Sb) & [(C & _)|O]) Z0 R; [lia|]. pose proof O as (Hc & b & r & P & N & L).
    destruct (Owning_owner e h m l O) as (b' & Ob & P' & _). rewrite P in P'. injection P' as <-.
    destruct Z0 as [Z0|Z0]; [congruence|]. rewrite P in Z0. cbn [padd] in Z0. rewrite S, Z.add_0_l in Z0.
    destruct r as [|z r].
    { unfold load_n, rd in Z0. rewrite N in Z0. cbn [Z.eqb bind bkind readable bcells andb] in Z0. rewrite app_nil_r in Z0.
      unfold in_range in Z0. replace ((0 <=? Z.of_nat (length l)) && (0 <=? 1) && (Z.of_nat (length l) + 1 <=? Z.of_nat (length l))) with false in Z0 by lia. discriminate. }
    rewrite (load_ok' h b _ _ 1 l [z] r N) in Z0; [|reflexivity..]. injection Z0 as ->. exists b, r. auto.
  Qed.
  Lemma nul_cap h m l : Minv e h m l -> Nul h m -> 0 < mcap m -> Z.of_nat (length l) + 1 <= mcap m.
  Proof. intros I Z0 C. destruct (nul_room h m l I Z0 C) as (b & r & _ & _ & L & _). rewrite app_length in L. cbn [length] in L. lia. Qed.

  Lemma term_ok h m l : Minv e h m l -> Z.of_nat (length l) + 1 <= mcap m ->
    exists h', store_n h (padd (mptr m) (Z.of_nat (length l))) [Some 0] = Ok h' /\ Step h m h' m /\ Minv e h' m l /\ Nul h' m.
  Proof.
    intros I R. destruct (room h m l I R) as (b & z & r & P & N & L & Hc & Ob). destruct I as ((S & Sb) & _).
    destruct (store_ok h b _ (Z.of_nat (length l)) l [z] r [Some 0] N eq_refl eq_refl eq_refl eq_refl) as (h' & E & W).
    exists h'. rewrite P. cbn [padd]. rewrite Z.add_0_l. split; [exact E|]. split; [eapply hset_step; eauto|].
    destruct W as (_ & W & _). cbn [app bbase bkind] in W.
    split; [|eapply nul_at; eauto]. split; [auto|]. right. split; [exact Hc|]. exists b, (Some 0 :: r).
    split; [exact P|]. split; [exact W|]. rewrite <- L, !app_length. reflexivity.
  Qed.
  Lemma terminate_ok h m l : Minv e h m l -> Z.of_nat (length l) + 1 <= mcap m ->
    exists h', terminate h m = Ok (h', m) /\ Step h m h' m /\ Minv e h' m l /\ Nul h' m.
  Proof.
    intros I R. destruct (term_ok h m l I R) as (h' & E & X). exists h'. split; [|exact X].
    unfold terminate. destruct I as ((S & _) & _). rewrite S, E. reflexivity.
  Qed.

  (** Writing inside the text. *)
  Lemma put_in h m pre old post x : Minv e h m (pre ++ old ++ post) -> (old <> [] -> 0 < mcap m) -> length old = length x ->
    exists h', store_n h (padd (mptr m) (Z.of_nat (length pre))) x = Ok h' /\ Step h m h' m /\ Minv e h' m (pre ++ x ++ post) /\
      (Nul h m -> Nul h' m).
  Proof.
    intros I Hc Lx. destruct (store_in e h m pre old post x I Hc Lx) as (h' & E & St & I').
    exists h'. split; [exact E|]. split; [exact St|]. split; [exact I'|]. intros Z0.
    destruct x as [|y x]; [cbn [store_n] in E; injection E as <-; exact Z0|].
    assert (C : 0 < mcap m) by (destruct old; [discriminate|]; apply Hc; discriminate).
    destruct (nul_room h m _ I Z0 C) as (b & r & P & N & L & Hcc & Ob).
    pose proof I' as ((S' & _) & _).
    rewrite P in E. cbn [padd] in E. rewrite Z.add_0_l in E.
    rewrite <- !app_assoc in N.
    destruct (store_ok h b _ (Z.of_nat (length pre)) pre old (post ++ Some 0 :: r) (y :: x) N eq_refl eq_refl Lx eq_refl) as (h2 & E2 & W).
    rewrite E in E2. injection E2 as <-. destruct W as (_ & W & _). cbn [bbase bkind] in W.
    eapply (nul_at h' m b (pre ++ (y :: x) ++ post) r); [exact P| |exact S'].
    rewrite <- !app_assoc. exact W.
  Qed.
  Lemma copy_in h m pre old post p n src : Minv e h m (pre ++ old ++ post) -> (old <> [] -> 0 < mcap m) ->
    load_n h p n = Ok src -> length old = length src ->
    exists h', copy_n h p n (padd (mptr m) (Z.of_nat (length pre))) = Ok h' /\ Step h m h' m /\ Minv e h' m (pre ++ src ++ post) /\
      (Nul h m -> Nul h' m).
  Proof. intros I Hc E L. unfold copy_n. rewrite E. cbn [bind]. exact (put_in h m pre old post src I Hc L). Qed.

  Lemma fill_loop_ok p len src cnt : forall h m pre old post, Minv e h m (pre ++ old ++ post) -> (old <> [] -> 0 < mcap m) ->
    Outside h m p len -> load_n h p len = Ok src -> len = Z.of_nat (length src) -> (length old = length src * cnt)%nat ->
    exists h', fill_loop h (padd (mptr m) (Z.of_nat (length pre))) p len cnt = Ok h' /\ Step h m h' m /\
      Minv e h' m (pre ++ concat (repeat src cnt) ++ post) /\ (Nul h m -> Nul h' m).
  Proof.
    induction cnt as [|c IH]; intros h m pre old post I Hc Ho El Ll Lo.
    - cbn [fill_loop repeat concat]. exists h. split; [reflexivity|]. split; [apply Step_refl|]. split; [|auto].
      destruct old; [exact I|cbn [length] in Lo; lia].
    - cbn [fill_loop repeat concat].
      destruct (seq_parts old (length src) ltac:(lia)) as (Eo & LA).
      remember (firstn (length src) old) as o1 eqn:E1. remember (skipn (length src) old) as o2 eqn:E2.
      assert (L2 : (length o2 = length src * c)%nat) by (rewrite E2, skipn_length; lia).
      rewrite Eo, <- app_assoc in I.
      destruct (copy_in h m pre o1 (o2 ++ post) p len src I) as (h1 & F1 & S1 & I1 & Z1); [|exact El|exact LA|].
      { intros N1. apply Hc. rewrite Eo. destruct o1; [congruence|discriminate]. }
      rewrite F1. cbn [bind]. rewrite padd_padd, Ll, <- Nat2Z.inj_add, <- app_length, <- Ll.
      rewrite app_assoc in I1.
      destruct (IH h1 m (pre ++ src) o2 post I1) as (h2 & F2 & S2 & I2 & Z2).
      + intros N2. apply Hc. rewrite Eo. destruct o1; [exact N2|discriminate].
      + exact (Outside_step _ _ _ _ _ _ (Step_Step0 _ _ _ _ S1) Ho).
      + rewrite (load_frame h m h1 m p len (Step_Step0 _ _ _ _ S1) Ho). exact El.
      + exact Ll.
      + exact L2.
      + exists h2. split; [exact F2|]. split; [eapply Step_trans; eauto|]. split; [|auto].
        rewrite <- !app_assoc in *. exact I2.
  Qed.
  Lemma concat_repeat1 (x : option Z) n : concat (repeat [x] n) = repeat x n.
  Proof. induction n; cbn [repeat concat app]; [reflexivity|now f_equal]. Qed.
  Lemma fill_ok p len src cnt h m pre old post : Minv e h m (pre ++ old ++ post) -> (old <> [] -> 0 < mcap m) ->
    Outside h m p len -> load_n h p len = Ok src -> len = Z.of_nat (length src) -> (length old = length src * Z.to_nat cnt)%nat ->
    exists h', fill h (padd (mptr m) (Z.of_nat (length pre))) p len cnt = Ok h' /\ Step h m h' m /\
      Minv e h' m (pre ++ times src cnt ++ post) /\ (Nul h m -> Nul h' m).
  Proof.
    intros I Hc Ho El Ll Lo. unfold fill, times. destruct (Z.eqb_spec len 1) as [L1|N1]; [|eapply fill_loop_ok; eauto].
    assert (exists c, src = [c]) as (c & ->).
    { destruct src as [|c [|]]; cbn [length] in Ll; try lia. eauto. }
    rewrite <- L1, El. cbn [bind]. rewrite concat_repeat1. eapply put_in; [exact I|exact Hc|].
    rewrite repeat_length. cbn [length] in Lo. lia.
  Qed.

  (** ** resize and what builds on it *)
  Variable nul : ptr.

  Lemma nil_minv h : Minv e h mb_nil [].
  Proof. split; [cbn; lia|]. left. split; [reflexivity|]. left. auto. Qed.
  Lemma nulstr_ok h : NulBlk nul h -> Minv e h (mkmb nul 0 0) [] /\ Nul h (mkmb nul 0 0).
  Proof.
    intros (b & base & -> & N). split.
    - split; [cbn; lia|]. left. split; [reflexivity|]. right. exists b, (mkblk [Some 0] base Literal), [], [Some 0].
      split; [reflexivity|]. split; [exact N|]. split; [right; reflexivity|]. split; [reflexivity|discriminate].
    - right. cbn [mptr msize padd]. eapply (load_ok' h b _ _ 1 [] [Some 0] [] N); reflexivity.
  Qed.
  Lemma str_resize_ok h m l n : Minv e h m l -> NulBlk nul h -> 0 <= n < 2 ^ 31 ->
    exists h' m' l', str_resize e nul h m n = Ok (h', m') /\ Step h m h' m' /\ Minv e h' m' l' /\ Nul h' m' /\
      length l' = Z.to_nat n /\ firstn (Nat.min (Z.to_nat n) (length l)) l' = firstn (Nat.min (Z.to_nat n) (length l)) l /\
      (0 < n -> n + 1 <= mcap m').
  Proof.
    intros I B Hn. unfold str_resize. destruct ((n =? 0) && (mcap m =? 0)) eqn:E0.
    - apply andb_prop in E0. destruct E0 as (N0 & C0). destruct (nulstr_ok h B) as (I0 & Z0).
      exists h, (mkmb nul 0 0), []. split; [reflexivity|].
      split; [apply Step_same; unfold owner; cbn [mcap]; now rewrite C0|]. split; [exact I0|]. split; [exact Z0|].
      assert (n = 0) as -> by lia. split; [reflexivity|]. split; [reflexivity|lia].
    - destruct (resize_ok e Hmem 1 h m l n true ltac:(lia) ltac:(lia) ltac:(lia) I) as (h1 & m1 & l1 & E & St & I1 & C1 & L1 & F1 & _).
      rewrite E. cbn [bind]. destruct (term_ok h1 m1 l1 I1 ltac:(lia)) as (h2 & E2 & St2 & I2 & Z2).
      replace (Z.of_nat (length l1)) with n in E2 by lia. rewrite E2. cbn [bind]. exists h2, m1, l1.
      split; [reflexivity|]. split; [eapply Step_trans; eauto|]. auto.
  Qed.

  Lemma str_assign_ok h m l p n src : Minv e h m l -> NulBlk nul h -> 0 <= n < 2 ^ 31 -> Outside h m p n -> load_n h p n = Ok src ->
    exists h' m', str_assign e nul h m p n = Ok (h', m') /\ Step h m h' m' /\ Minv e h' m' src /\ Nul h' m'.
  Proof.
    intros I B Hn Ho El. unfold str_assign. pose proof (load_length h p n src ltac:(lia) El) as Ls.
    destruct (str_resize_ok h m l n I B Hn) as (h1 & m1 & l1 & E & St & I1 & Z1 & L1 & _ & C1).
    rewrite E. cbn [bind].
    destruct (copy_in h1 m1 [] l1 [] p n src) as (h2 & E2 & St2 & I2 & Z2).
    { cbn [app]. now rewrite app_nil_r. }
    { intros N1. destruct l1; [congruence|]. cbn [length] in L1. lia. }
    { rewrite (load_frame h m h1 m1 p n (Step_Step0 _ _ _ _ St) Ho). exact El. }
    { lia. }
    cbn [length Z.of_nat] in E2. rewrite padd_0 in E2. rewrite E2. cbn [bind]. exists h2, m1.
    split; [reflexivity|]. split; [eapply Step_trans; eauto|]. cbn [app] in I2. rewrite app_nil_r in I2. auto.
  Qed.

  (** Growing at the end, then writing the new part. *)
  Lemma grow h m l n : Minv e h m l -> NulBlk nul h -> 0 <= n -> Z.of_nat (length l) + n < 2 ^ 31 ->
    exists h' m' x, str_resize e nul h m (u64 (msize m + n)) = Ok (h', m') /\ Step h m h' m' /\ Minv e h' m' (l ++ x) /\ Nul h' m' /\
      length x = Z.to_nat n /\ (x <> [] -> 0 < mcap m') /\ msize m' - n = Z.of_nat (length l).
  Proof.
    intros I B Hn Hb. pose proof I as ((S & _) & _). rewrite S, u64_small by lia.
    destruct (str_resize_ok h m l (Z.of_nat (length l) + n) I B ltac:(lia)) as (h1 & m1 & l1 & E & St & I1 & Z1 & L1 & F1 & C1).
    exists h1, m1, (skipn (length l) l1). split; [exact E|]. split; [exact St|].
    replace (Nat.min (Z.to_nat (Z.of_nat (length l) + n)) (length l)) with (length l) in F1 by lia. rewrite firstn_all in F1.
    assert (El : l ++ skipn (length l) l1 = l1) by (rewrite <- F1 at 1; apply firstn_skipn).
    rewrite El. split; [exact I1|]. split; [exact Z1|]. split; [rewrite skipn_length; lia|].
    split; [|destruct I1 as ((S1 & _) & _); lia].
    intros Nx. assert (length (skipn (length l) l1) <> 0)%nat by (destruct (skipn (length l) l1); [congruence|cbn; lia]).
    rewrite skipn_length in H. lia.
  Qed.
  Lemma str_append_ok h m l p n src : Minv e h m l -> NulBlk nul h -> 0 <= n -> Z.of_nat (length l) + n < 2 ^ 31 ->
    Outside h m p n -> load_n h p n = Ok src ->
    exists h' m', str_append e nul h m p n = Ok (h', m') /\ Step h m h' m' /\ Minv e h' m' (l ++ src) /\ Nul h' m'.
  Proof.
    intros I B Hn Hb Ho El. unfold str_append. pose proof (load_length h p n src ltac:(lia) El) as Ls.
    destruct (grow h m l n I B Hn Hb) as (h1 & m1 & x & E & St & I1 & Z1 & Lx & C1 & S1).
    rewrite E. cbn [bind]. rewrite S1.
    destruct (copy_in h1 m1 l x [] p n src) as (h2 & E2 & St2 & I2 & Z2).
    { now rewrite app_nil_r. }
    { exact C1. }
    { rewrite (load_frame h m h1 m1 p n (Step_Step0 _ _ _ _ St) Ho). exact El. }
    { lia. }
    rewrite E2. cbn [bind]. exists h2, m1. split; [reflexivity|]. split; [eapply Step_trans; eauto|].
    rewrite app_nil_r in I2. auto.
  Qed.
  Lemma str_append_fill_ok h m l n c : Minv e h m l -> NulBlk nul h -> 0 <= n -> Z.of_nat (length l) + n < 2 ^ 31 ->
    exists h' m', str_append_fill e nul h m n c = Ok (h', m') /\ Step h m h' m' /\ Minv e h' m' (l ++ repeat (Some c) (Z.to_nat n)) /\ Nul h' m'.
  Proof.
    intros I B Hn Hb. unfold str_append_fill.
    destruct (grow h m l n I B Hn Hb) as (h1 & m1 & x & E & St & I1 & Z1 & Lx & C1 & S1).
    rewrite E. cbn [bind]. rewrite S1. unfold fill_n.
    destruct (put_in h1 m1 l x [] (repeat (Some c) (Z.to_nat n))) as (h2 & E2 & St2 & I2 & Z2).
    { now rewrite app_nil_r. }
    { exact C1. }
    { now rewrite repeat_length. }
    rewrite E2. cbn [bind]. exists h2, m1. split; [reflexivity|]. split; [eapply Step_trans; eauto|].
    rewrite app_nil_r in I2. auto.
  Qed.
  Lemma str_push_back_ok h m l c : Minv e h m l -> NulBlk nul h -> Z.of_nat (length l) + 1 < 2 ^ 31 ->
    exists h' m', str_push_back e nul h m c = Ok (h', m') /\ Step h m h' m' /\ Minv e h' m' (l ++ [Some c]) /\ Nul h' m'.
  Proof.
    intros I B Hb. exact (str_append_fill_ok h m l 1 c I B ltac:(lia) Hb).
  Qed.
  Lemma str_assign_fill_ok h m l n c : Minv e h m l -> NulBlk nul h -> 0 <= n < 2 ^ 31 ->
    exists h' m', str_assign_fill e nul h m n c = Ok (h', m') /\ Step h m h' m' /\ Minv e h' m' (repeat (Some c) (Z.to_nat n)) /\ Nul h' m'.
  Proof.
    intros I B Hn. unfold str_assign_fill, str_clear.
    destruct (str_resize_ok h m l 0 I B ltac:(lia)) as (h1 & m1 & l1 & E & St & I1 & Z1 & L1 & _ & _).
    rewrite E. cbn [bind]. destruct l1; [|cbn in L1; lia].
    destruct (str_append_fill_ok h1 m1 [] n c I1) as (h2 & m2 & E2 & St2 & I2 & Z2); try (cbn [length]; lia).
    { eapply NulBlk_step; [exact B|exact I|exact (Step_Step0 _ _ _ _ St)]. }
    exists h2, m2. split; [exact E2|]. split; [eapply Step_trans; eauto|]. auto.
  Qed.
  Lemma str_resize_fill_ok h m l n c : Minv e h m l -> NulBlk nul h -> 0 <= n < 2 ^ 31 ->
    exists h' m', str_resize_fill e nul h m n c = Ok (h', m') /\ Step h m h' m' /\ Minv e h' m' (seq_resize l (Z.to_nat n) (Some c)) /\ Nul h' m'.
  Proof.
    intros I B Hn. unfold str_resize_fill. pose proof I as ((S & Sb) & _).
    destruct (str_resize_ok h m l n I B Hn) as (h1 & m1 & l1 & E & St & I1 & Z1 & L1 & F1 & C1).
    rewrite E. cbn [bind]. pose proof I1 as ((S1 & _) & _). unfold clamp, fill_n. rewrite S, S1.
    set (k := Nat.min (Z.to_nat n) (length l)) in *.
    replace (Z.min (Z.of_nat (length l)) (Z.of_nat (length l1))) with (Z.of_nat (length (firstn k l))).
    2:{ rewrite firstn_length. lia. }
    destruct (put_in h1 m1 (firstn k l) (skipn k l1) [] (repeat (Some c) (Z.to_nat (Z.max (n - Z.of_nat (length l)) 0)))) as (h2 & E2 & St2 & I2 & Z2).
    { rewrite app_nil_r, <- F1, firstn_skipn. exact I1. }
    { intros Nx. assert (length (skipn k l1) <> 0)%nat by (destruct (skipn k l1); [congruence|cbn; lia]).
      rewrite skipn_length in H. lia. }
    { rewrite skipn_length, repeat_length. lia. }
    rewrite E2. cbn [bind]. exists h2, m1. split; [reflexivity|]. split; [eapply Step_trans; eauto|].
    split; [|auto]. rewrite app_nil_r in I2. unfold seq_resize.
    replace (firstn (Z.to_nat n) l) with (firstn k l).
    2:{ unfold k. rewrite <- firstn_firstn, firstn_all. reflexivity. }
    replace (Z.to_nat n - length l)%nat with (Z.to_nat (Z.max (n - Z.of_nat (length l)) 0)) by lia. exact I2.
  Qed.
  Lemma str_reserve_ok h m l n : Minv e h m l -> Nul h m -> mptr m <> None -> Z.of_nat (length l) <= n -> n < 2 ^ 31 ->
    exists h' m', reserve e 1 h m n false = Ok (h', m') /\ Step h m h' m' /\ Minv e h' m' l /\ Nul h' m'.
  Proof.
    intros I Z0 Np Hn Hb. pose proof I as ((S & Sb) & I2).
    destruct (reserve_gen e Hmem 1 h m l n false ltac:(lia) ltac:(lia) ltac:(lia) I) as (h' & m' & E & St & Sz & Cp & [(_ & -> & ->)|R]).
    - exists h, m. auto.
    - exists h', m'. split; [exact E|]. split; [exact St|].
      destruct R as (b & c & HC & P & N & L & F & _ & Q).
      assert (Hlc : (length l < length c)%nat) by lia.
      replace (Nat.min (length l) (length c)) with (length l) in F by lia. rewrite firstn_all in F.
      assert (0 <= mcap m) by (destruct I2 as [(H & _)|(H & _)]; lia).
      split; [split; [rewrite Sz; auto|]; right; eapply Owning_intro; eauto; lia|].
      destruct Z0 as [Z0|Z0]; [congruence|]. specialize (Q _ Z0 Hlc).
      apply nth_error_split in Q. destruct Q as (l1 & l2 & Ec & L1).
      assert (l1 = l). { rewrite <- F, Ec, <- L1, firstn_app, Nat.sub_diag, firstn_all. cbn [firstn]. now rewrite app_nil_r. }
      subst l1. rewrite Ec in N. eapply (nul_at h' m' b l l2); eauto. lia.
  Qed.

  (** ** insert, erase, replace *)
  Lemma ins_gen h m l ip n : Minv e h m l -> 0 <= ip -> 0 <= n -> Z.of_nat (length l) + n < 2 ^ 31 -> ins_moves (Z.of_nat (length l)) ip n ->
    exists h' m' x, insert e 1 h m (clamp m ip) n = Ok (h', m') /\ Step h m h' m' /\ Minv e h' m' (upto ip l ++ x ++ from ip l) /\
      length x = Z.to_nat n /\ Z.of_nat (length l) + n + 1 <= mcap m' /\ clamp m ip = Z.of_nat (length (upto ip l)).
  Proof.
    intros I Hip Hn Hb G. pose proof I as ((S & _) & _). unfold clamp, upto, from. rewrite S.
    destruct (insert_ok e Henv Hmem 1 h m l (Z.min ip (Z.of_nat (length l))) n) as (h' & m' & x & E & St & I' & Lx & C); try lia; auto.
    { destruct G as [G|[G|G]]; [auto|right; left; lia|].
      destruct (Z.le_gt_cases (Z.of_nat (length l)) ip); [right; left; lia|]. right; right.
      rewrite Z.min_l by lia. exact G. }
    exists h', m', x. split; [exact E|]. split; [exact St|]. split; [exact I'|]. split; [exact Lx|]. split; [lia|].
    rewrite firstn_length. lia.
  Qed.
  Lemma fin h m l : Minv e h m l -> Z.of_nat (length l) + 1 <= mcap m ->
    exists h', terminate h m = Ok (h', m) /\ Step h m h' m /\ Minv e h' m l /\ Nul h' m.
  Proof. exact (terminate_ok h m l). Qed.
  Lemma upto_from_len {X} ip (l : list X) : 0 <= ip -> (length (upto ip l) + length (from ip l) = length l)%nat.
  Proof. intros H. unfold upto, from. rewrite firstn_length, skipn_length. lia. Qed.

  Lemma str_insert_fill_ok h m l ip n c : Minv e h m l -> 0 <= ip -> 0 <= n -> Z.of_nat (length l) + n < 2 ^ 31 -> ins_moves (Z.of_nat (length l)) ip n ->
    exists h' m', str_insert_fill e h m ip n c = Ok (h', m') /\ Step h m h' m' /\
      Minv e h' m' (upto ip l ++ repeat (Some c) (Z.to_nat n) ++ from ip l) /\ Nul h' m'.
  Proof.
    intros I Hip Hn Hb G. unfold str_insert_fill. destruct (ins_gen h m l ip n I Hip Hn Hb G) as (h1 & m1 & x & E & St & I1 & Lx & C1 & Cl).
    rewrite E. cbn [bind]. rewrite Cl. unfold fill_n.
    destruct (put_in h1 m1 _ x _ (repeat (Some c) (Z.to_nat n)) I1) as (h2 & E2 & St2 & I2 & _); [intros _; lia|now rewrite repeat_length|].
    rewrite E2. cbn [bind]. destruct (fin h2 m1 _ I2) as (h3 & E3 & St3 & I3 & Z3).
    { rewrite !app_length, repeat_length. pose proof (upto_from_len ip l Hip). lia. }
    rewrite E3. exists h3, m1. split; [reflexivity|]. split; [exact (Step_trans _ _ _ _ _ _ St (Step_trans _ _ _ _ _ _ St2 St3))|]. auto.
  Qed.
  Lemma times_length {X} (x : list X) n : (length (times x n) = length x * Z.to_nat n)%nat.
  Proof. unfold times. induction (Z.to_nat n) as [|k IH]; cbn [repeat concat]; [cbn; lia|]. rewrite app_length, IH. lia. Qed.
  Lemma times_lengthZ {X} (x : list X) n : 0 <= n -> Z.of_nat (length (times x n)) = Z.of_nat (length x) * n.
  Proof. intros H. rewrite times_length. lia. Qed.
  Lemma str_insert_ok h m l ip p len cnt src : Minv e h m l -> 0 <= ip -> 0 <= len -> 0 <= cnt -> Z.of_nat (length l) + len * cnt < 2 ^ 31 ->
    ins_moves (Z.of_nat (length l)) ip (len * cnt) -> Outside h m p len -> load_n h p len = Ok src ->
    exists h' m', str_insert e h m ip p len cnt = Ok (h', m') /\ Step h m h' m' /\
      Minv e h' m' (upto ip l ++ times src cnt ++ from ip l) /\ Nul h' m'.
  Proof.
    intros I Hip Hl Hcn Hb G Ho El. unfold str_insert. pose proof (load_length h p len src Hl El) as Ls.
    assert (0 <= len * cnt) by (apply Z.mul_nonneg_nonneg; lia). rewrite u64_small by lia.
    destruct (ins_gen h m l ip (len * cnt) I Hip ltac:(lia) Hb G) as (h1 & m1 & x & E & St & I1 & Lx & C1 & Cl).
    rewrite E. cbn [bind]. rewrite Cl.
    assert (Lx2 : (length x = length src * Z.to_nat cnt)%nat) by (rewrite Lx, Ls; rewrite Z2Nat.inj_mul by lia; reflexivity).
    destruct (fill_ok p len src cnt h1 m1 _ x _ I1) as (h2 & E2 & St2 & I2 & _).
    { intros _; lia. }
    { exact (Outside_step _ _ _ _ _ _ (Step_Step0 _ _ _ _ St) Ho). }
    { rewrite (load_frame h m h1 m1 p len (Step_Step0 _ _ _ _ St) Ho). exact El. }
    { lia. }
    { exact Lx2. }
    rewrite E2. cbn [bind]. destruct (fin h2 m1 _ I2) as (h3 & E3 & St3 & I3 & Z3).
    { rewrite !app_length, times_length, <- Lx2. pose proof (upto_from_len ip l Hip). lia. }
    rewrite E3. exists h3, m1. split; [reflexivity|]. split; [exact (Step_trans _ _ _ _ _ _ St (Step_trans _ _ _ _ _ _ St2 St3))|]. auto.
  Qed.

  Lemma str_erase_ok h m l ep n : Minv e h m l -> 0 <= ep <= Z.of_nat (length l) -> Z.of_nat (length l) < 2 ^ 31 -> 0 <= n ->
    del_moves (Z.of_nat (length l)) ep (Z.min n (Z.of_nat (length l) - ep)) ->
    exists h' m', str_erase e h m ep n = Ok (h', m') /\ Step h m h' m' /\ Minv e h' m' (upto ep l ++ from (ep + n) l) /\ Nul h' m'.
  Proof.
    intros I Hep Hb Hn G. pose proof I as ((S & _) & _). unfold str_erase, clamp, str_erase_at. rewrite S, u64_small by lia.
    rewrite (Z.min_l ep) by lia. set (k := Z.min n (Z.of_nat (length l) - ep)) in *.
    destruct (erase_ok e Henv Hmem 1 h m l ep k) as (h1 & m1 & E & St & I1 & C1); try lia; auto.
    rewrite E. cbn [bind].
    assert (SE : seq_erase l (Z.to_nat ep) (Z.to_nat k) = upto ep l ++ from (ep + n) l).
    { unfold seq_erase, upto, from. f_equal; f_equal; lia. }
    rewrite SE in I1. destruct (fin h1 m1 _ I1) as (h2 & E2 & St2 & I2 & Z2).
    { rewrite app_length. unfold upto, from. rewrite firstn_length, skipn_length. lia. }
    rewrite E2. exists h2, m1. split; [reflexivity|]. split; [exact (Step_trans _ _ _ _ _ _ St St2)|]. auto.
  Qed.

  Definition rep_prep (h : heap) (m : mb) (f l bti : Z) : outcome (heap * mb) :=
    let bte := u64 (l - f) in
    if bti <? bte then erase e 1 h m f (bte - bti)
    else if bte <? bti then insert e 1 h m f (bti - bte) else Ok (h, m).
  Lemma rep_prep_ok h m s f l bti : Minv e h m s -> Nul h m -> 0 <= f <= l -> l <= Z.of_nat (length s) -> Z.of_nat (length s) < 2 ^ 31 ->
    0 <= bti -> Z.of_nat (length s) - (l - f) + bti < 2 ^ 31 ->
    rep_moves (Z.of_nat (length s)) f l bti -> (bti = l - f -> 0 < mcap m) ->
    exists h' m' old, rep_prep h m f l bti = Ok (h', m') /\ Step h m h' m' /\
      Minv e h' m' (firstn (Z.to_nat f) s ++ old ++ skipn (Z.to_nat l) s) /\ length old = Z.to_nat bti /\
      Z.of_nat (length s) - (l - f) + bti + 1 <= mcap m'.
  Proof.
    intros I Z0 Hf Hl Hs Hbi Hb (G1 & G2) Hc. unfold rep_prep. rewrite u64_small by lia.
    assert (Esk : skipn (Z.to_nat f) s = firstn (Z.to_nat (l - f)) (skipn (Z.to_nat f) s) ++ skipn (Z.to_nat l) s).
    { rewrite <- (firstn_skipn (Z.to_nat (l - f)) (skipn (Z.to_nat f) s)) at 1. f_equal. rewrite skipn_skipn. f_equal. lia. }
    destruct (Z.ltb_spec bti (l - f)) as [L1|L1].
    - specialize (G2 L1).
      destruct (erase_ok e Henv Hmem 1 h m s f (l - f - bti)) as (h1 & m1 & E & St & I1 & C1); try lia; auto.
      exists h1, m1, (firstn (Z.to_nat bti) (skipn (Z.to_nat (f + (l - f - bti))) s)).
      split; [exact E|]. split; [exact St|]. unfold seq_erase in I1.
      replace (Z.to_nat f + Z.to_nat (l - f - bti))%nat with (Z.to_nat (f + (l - f - bti))) in I1 by lia.
      split; [|split; [rewrite firstn_length, skipn_length; lia|lia]].
      replace (skipn (Z.to_nat l) s) with (skipn (Z.to_nat bti) (skipn (Z.to_nat (f + (l - f - bti))) s)) by (rewrite skipn_skipn; f_equal; lia).
      rewrite firstn_skipn. exact I1.
    - destruct (Z.ltb_spec (l - f) bti) as [L2|L2].
      + specialize (G1 L2).
        destruct (insert_ok e Henv Hmem 1 h m s f (bti - (l - f))) as (h1 & m1 & x & E & St & I1 & Lx & C1); try lia; auto.
        { destruct G1 as [G1|[G1|G1]]; [auto|right; left; lia|auto]. }
        exists h1, m1, (x ++ firstn (Z.to_nat (l - f)) (skipn (Z.to_nat f) s)).
        split; [exact E|]. split; [exact St|]. unfold seq_insert in I1.
        split; [|split; [rewrite app_length, firstn_length, skipn_length; lia|lia]].
        rewrite <- (app_assoc x), <- Esk. exact I1.
      + exists h, m, (firstn (Z.to_nat (l - f)) (skipn (Z.to_nat f) s)). split; [reflexivity|]. split; [apply Step_refl|].
        split; [|split; [rewrite firstn_length, skipn_length; lia|]].
        * rewrite <- Esk, firstn_skipn. exact I.
        * pose proof (nul_cap h m s I Z0 (Hc ltac:(lia))). lia.
  Qed.

  Lemma rep_fin h1 m1 pre old post x h2 : Minv e h1 m1 (pre ++ old ++ post) -> length x = length old ->
    Z.of_nat (length (pre ++ old ++ post)) + 1 <= mcap m1 -> Step h1 m1 h2 m1 -> Minv e h2 m1 (pre ++ x ++ post) ->
    exists h3, terminate h2 m1 = Ok (h3, m1) /\ Step h1 m1 h3 m1 /\ Minv e h3 m1 (pre ++ x ++ post) /\ Nul h3 m1.
  Proof.
    intros I1 L C St2 I2. destruct (fin h2 m1 _ I2) as (h3 & E3 & St3 & I3 & Z3).
    { rewrite !app_length in *. lia. }
    exists h3. split; [exact E3|]. split; [exact (Step_trans _ _ _ _ _ _ St2 St3)|]. auto.
  Qed.

  Lemma rep_args {X} (s : list X) rp n : 0 <= rp < 2 ^ 63 -> 0 <= n < 2 ^ 63 -> Z.of_nat (length s) < 2 ^ 31 ->
    let f := Z.min rp (Z.of_nat (length s)) in let l := Z.min (rp + n) (Z.of_nat (length s)) in
    0 <= f <= l /\ l <= Z.of_nat (length s) /\ u64 (rp + n) = rp + n /\ u64 (l - f) = l - f /\
    firstn (Z.to_nat f) s = upto rp s /\ skipn (Z.to_nat l) s = from (rp + n) s.
  Proof.
    intros H1 H2 H3 f l. split; [lia|]. split; [lia|]. split; [apply u64_small; lia|]. split; [apply u64_small; lia|].
    split; reflexivity.
  Qed.

  Lemma str_replace_ok h m s rp n p len cnt src : Minv e h m s -> Nul h m -> 0 <= rp < 2 ^ 63 -> 0 <= n < 2 ^ 63 -> Z.of_nat (length s) < 2 ^ 31 ->
    0 <= len -> 0 <= cnt -> len * cnt < 2 ^ 31 -> Outside h m p len -> load_n h p len = Ok src ->
    Z.of_nat (length (upto rp s ++ times src cnt ++ from (rp + n) s)) < 2 ^ 31 ->
    rep_moves (Z.of_nat (length s)) (Z.min rp (Z.of_nat (length s))) (Z.min (rp + n) (Z.of_nat (length s))) (len * cnt) ->
    (length (upto rp s ++ times src cnt ++ from (rp + n) s) = length s -> 0 < mcap m) ->
    exists h' m', str_replace e h m rp (u64 (rp + n)) p len cnt = Ok (h', m') /\ Step h m h' m' /\
      Minv e h' m' (upto rp s ++ times src cnt ++ from (rp + n) s) /\ Nul h' m'.
  Proof.
    intros I Z0 Hrp Hn Hs Hl Hcn Hb Ho El Hnew G Hc. pose proof I as ((S & _) & _).
    destruct (rep_args s rp n Hrp Hn Hs) as (F1 & F2 & U1 & U2 & Ef & Es). rewrite U1.
    set (f := Z.min rp (Z.of_nat (length s))) in *. set (l := Z.min (rp + n) (Z.of_nat (length s))) in *.
    pose proof (load_length h p len src Hl El) as Ls. assert (Hp : 0 <= len * cnt) by (apply Z.mul_nonneg_nonneg; lia).
    assert (LT : Z.of_nat (length (times src cnt)) = len * cnt) by (rewrite times_lengthZ by lia; f_equal; lia).
    rewrite !app_length in Hnew, Hc.
    assert (Lu : Z.of_nat (length (upto rp s)) = f) by (rewrite <- Ef, firstn_length; lia).
    assert (Lf : Z.of_nat (length (from (rp + n) s)) = Z.of_nat (length s) - l) by (rewrite <- Es, skipn_length; lia).
    destruct (rep_prep_ok h m s f l (len * cnt) I Z0 F1 F2 Hs Hp ltac:(lia) G ltac:(lia)) as (h1 & m1 & old & E & St & I1 & Lo & C1).
    unfold str_replace, clamp. rewrite S. fold f l. rewrite (u64_small (len * cnt)) by lia. fold (rep_prep h m f l (len * cnt)).
    rewrite E. cbn [bind]. rewrite Ef, Es in I1.
    destruct (fill_ok p len src cnt h1 m1 _ old _ I1) as (h2 & E2 & St2 & I2 & _).
    { intros _; lia. }
    { exact (Outside_step _ _ _ _ _ _ (Step_Step0 _ _ _ _ St) Ho). }
    { rewrite (load_frame h m h1 m1 p len (Step_Step0 _ _ _ _ St) Ho). exact El. }
    { lia. }
    { rewrite Lo, Ls. rewrite Z2Nat.inj_mul by lia. reflexivity. }
    rewrite Lu in E2. rewrite E2. cbn [bind].
    destruct (rep_fin h1 m1 _ old _ (times src cnt) h2 I1) as (h3 & E3 & St3 & I3 & Z3); auto.
    { lia. }
    { rewrite !app_length. lia. }
    rewrite E3. exists h3, m1. split; [reflexivity|]. split; [exact (Step_trans _ _ _ _ _ _ St St3)|]. auto.
  Qed.
  Lemma str_replace_fill_ok h m s rp n cnt c : Minv e h m s -> Nul h m -> 0 <= rp < 2 ^ 63 -> 0 <= n < 2 ^ 63 -> Z.of_nat (length s) < 2 ^ 31 ->
    0 <= cnt -> Z.of_nat (length (upto rp s ++ repeat (Some c) (Z.to_nat cnt) ++ from (rp + n) s)) < 2 ^ 31 ->
    rep_moves (Z.of_nat (length s)) (Z.min rp (Z.of_nat (length s))) (Z.min (rp + n) (Z.of_nat (length s))) cnt ->
    (length (upto rp s ++ repeat (Some c) (Z.to_nat cnt) ++ from (rp + n) s) = length s -> 0 < mcap m) ->
    exists h' m', str_replace_fill e h m rp (u64 (rp + n)) cnt c = Ok (h', m') /\ Step h m h' m' /\
      Minv e h' m' (upto rp s ++ repeat (Some c) (Z.to_nat cnt) ++ from (rp + n) s) /\ Nul h' m'.
  Proof.
    intros I Z0 Hrp Hn Hs Hcn Hnew G Hc. pose proof I as ((S & _) & _).
    destruct (rep_args s rp n Hrp Hn Hs) as (F1 & F2 & U1 & U2 & Ef & Es). rewrite U1.
    set (f := Z.min rp (Z.of_nat (length s))) in *. set (l := Z.min (rp + n) (Z.of_nat (length s))) in *.
    rewrite !app_length, repeat_length in Hnew, Hc.
    assert (Lu : Z.of_nat (length (upto rp s)) = f) by (rewrite <- Ef, firstn_length; lia).
    assert (Lf : Z.of_nat (length (from (rp + n) s)) = Z.of_nat (length s) - l) by (rewrite <- Es, skipn_length; lia).
    destruct (rep_prep_ok h m s f l cnt I Z0 F1 F2 Hs Hcn ltac:(lia) G ltac:(lia)) as (h1 & m1 & old & E & St & I1 & Lo & C1).
    unfold str_replace_fill, clamp. rewrite S. fold f l. fold (rep_prep h m f l cnt).
    rewrite E. cbn [bind]. rewrite Ef, Es in I1.
    destruct (put_in h1 m1 _ old _ (repeat (Some c) (Z.to_nat cnt)) I1) as (h2 & E2 & St2 & I2 & _); [intros _; lia|now rewrite repeat_length|].
    rewrite Lu in E2. rewrite E2. cbn [bind].
    destruct (rep_fin h1 m1 _ old _ (repeat (Some c) (Z.to_nat cnt)) h2 I1) as (h3 & E3 & St3 & I3 & Z3); auto.
    { rewrite repeat_length. lia. }
    { rewrite !app_length. lia. }
    rewrite E3. exists h3, m1. split; [reflexivity|]. split; [exact (Step_trans _ _ _ _ _ _ St St3)|]. auto.
  Qed.

  (** ** Constructors (the object starts as an unlinked, empty memblock) *)
  Lemma memblock_n h n : 0 <= n -> n <= 2 ^ 31 -> exists h' m' l', resize e 0 h mb_nil n true = Ok (h', m') /\ Step h mb_nil h' m' /\
    Minv e h' m' l' /\ n <= mcap m' /\ length l' = Z.to_nat n.
  Proof.
    intros Hn Hb. destruct (resize_ok e Hmem 0 h mb_nil [] n true ltac:(lia) Hn ltac:(lia) (nil_minv h)) as (h' & m' & l' & E & St & I & C & L & _).
    exists h', m', l'. split; [exact E|]. split; [exact St|]. split; [exact I|]. split; [lia|exact L].
  Qed.
  Lemma minv_shorter h m l x : Minv e h m (l ++ [x]) -> 0 < mcap m -> Minv e h (mkmb (mptr m) (msize m - 1) (mcap m)) l /\
    (x = Some 0 -> Nul h (mkmb (mptr m) (msize m - 1) (mcap m))).
  Proof.
    intros ((S & Sb) & [(C & _)|O]) Hc; [lia|]. pose proof O as (Hcc & b & r & P & N & L). rewrite app_length in *. cbn [length] in *.
    rewrite <- app_assoc in N. cbn [app] in N. split.
    - split; [cbn [msize]; lia|]. right. split; [exact Hcc|]. exists b, (x :: r). cbn [mptr mcap]. split; [exact P|].
      split; [exact N|]. rewrite <- L, !app_length. cbn [length]. lia.
    - intros ->. eapply (nul_at h _ b l r); cbn [mptr msize]; eauto. lia.
  Qed.
  Lemma str_of_fill_ok h n c : 0 <= n < 2 ^ 31 ->
    exists h' m', str_of_fill e h n c = Ok (h', m') /\ Step h mb_nil h' m' /\ Minv e h' m' (repeat (Some c) (Z.to_nat n)) /\ Nul h' m'.
  Proof.
    intros Hn. unfold str_of_fill. rewrite u64_small by lia.
    destruct (memblock_n h (n + 1) ltac:(lia) ltac:(lia)) as (h1 & m1 & l1 & E & St & I1 & C1 & L1). rewrite E. cbn [bind].
    destruct (exists_last (l := l1)) as (l & x & ->). { destruct l1; [cbn in L1; lia|discriminate]. }
    rewrite app_length in L1. cbn [length] in L1.
    destruct (minv_shorter h1 m1 l x I1 ltac:(lia)) as (I2 & _). set (m2 := mkmb (mptr m1) (msize m1 - 1) (mcap m1)) in *.
    assert (S12 : Step h1 m1 h1 m2) by (apply Step_same; reflexivity).
    cbn [mptr mcap]. unfold fill_n.
    destruct (put_in h1 m2 [] l [] (repeat (Some c) (Z.to_nat n))) as (h3 & E3 & St3 & I3 & _).
    { cbn [app]. now rewrite app_nil_r. }
    { intros _. cbn [mcap m2]. lia. }
    { rewrite repeat_length. lia. }
    cbn [length Z.of_nat app] in E3, I3. rewrite padd_0 in E3. rewrite app_nil_r in I3.
    change (mptr m1) with (mptr m2). rewrite E3. cbn [bind].
    destruct (term_ok h3 m2 _ I3) as (h4 & E4 & St4 & I4 & Z4). { rewrite repeat_length. cbn [m2 mcap]. lia. }
    rewrite repeat_length, Z2Nat.id in E4 by lia. rewrite E4. cbn [bind]. exists h4, m2.
    split; [reflexivity|]. split; [exact (Step_trans _ _ _ _ _ _ St (Step_trans _ _ _ _ _ _ S12 (Step_trans _ _ _ _ _ _ St3 St4)))|]. auto.
  Qed.
  Lemma str_copy_ok h x l : Minv e h x l -> Nul h x -> Z.of_nat (length l) < 2 ^ 31 ->
    exists h' m', str_copy e h x = Ok (h', m') /\ Step h mb_nil h' m' /\ Minv e h' m' l /\ Nul h' m'.
  Proof.
    intros I Z0 Hb. unfold str_copy. pose proof I as ((S & _) & I2). destruct (is_linked x) eqn:Lk.
    - unfold is_linked in Lk. unfold resize. change (u64 (0 + 0)) with 0. cbn [mcap mb_nil Z.ltb Z.compare bind mptr].
      exists h, (mkmb (mptr x) (msize x) 0). split; [reflexivity|].
      split; [apply Step_same; reflexivity|]. destruct I2 as [(C & K)|(Hc & _)]; [|lia].
      split; [|exact Z0]. split; [exact (proj1 I)|]. left. split; [reflexivity|]. exact K.
    - unfold is_linked in Lk. rewrite u64_small by lia.
      destruct (memblock_n h (msize x + 1) ltac:(lia) ltac:(lia)) as (h1 & m1 & l1 & E & St & I1 & C1 & L1). rewrite E. cbn [bind].
      assert (Cx : 0 < mcap x) by (destruct I2 as [(C & _)|(C & _)]; lia).
      destruct (nul_room h x l I Z0 Cx) as (b & r & P & N & L & Hc & Ob).
      pose proof I1 as ((S1 & _) & _).
      destruct (copy_in h1 m1 [] l1 [] (mptr x) (msize m1) (l ++ [Some 0])) as (h2 & E2 & St2 & I3 & _).
      { cbn [app]. now rewrite app_nil_r. }
      { intros _. lia. }
      { rewrite P. destruct St as (_ & F & _).
        assert (N1 : nth_error h1 b = Some (mkblk (l ++ Some 0 :: r) (malloc_at e (mcap x)) Owned)).
        { rewrite F; [exact N|apply nth_error_Some; congruence|discriminate]. }
        apply (load_ok' h1 b _ 0 _ [] (l ++ [Some 0]) r N1).
        - reflexivity.
        - cbn [app bcells]. rewrite <- app_assoc. reflexivity.
        - reflexivity.
        - rewrite app_length. cbn [length]. lia. }
      { rewrite app_length. cbn [length]. lia. }
      cbn [length Z.of_nat app] in E2, I3. rewrite padd_0 in E2. rewrite app_nil_r in I3. rewrite E2. cbn [bind].
      destruct (minv_shorter h2 m1 l _ I3 ltac:(lia)) as (I4 & Z4). eexists _, _. split; [reflexivity|].
      split; [|auto]. eapply Step_trans; [exact St|]. eapply Step_trans; [exact St2|]. apply Step_same. reflexivity.
  Qed.

  (** ** C strings *)
  Lemma cstrlen_ok l post : Forall (fun c => c <> 0) l -> cstrlen (map Some l ++ Some 0 :: post) = Ok (Z.of_nat (length l)) /\
    c_prefix (map Some l ++ Some 0 :: post) = map Some l.
  Proof.
    induction l as [|c l IH]; intros F; [cbn; auto|]. inversion F as [|? ? Hc Fl]; subst. destruct (IH Fl) as (A & B).
    cbn [map app cstrlen c_prefix]. replace (c =? 0) with false by lia. rewrite A, B. cbn [bind length]. split; [f_equal; lia|reflexivity].
  Qed.
  (** What a C string argument is. *)
  Definition Cstr (h : heap) (p : ptr) (src : list (option Z)) : Prop :=
    let q := match p with None => nul | _ => p end in
    exists b k pre post, q = Some (b, Z.of_nat (length pre)) /\ nth_error h b = Some k /\
      (bkind k = Foreign \/ bkind k = Literal) /\ bcells k = pre ++ src ++ Some 0 :: post /\
      strlen h q = Ok (Z.of_nat (length src)) /\ Z.of_nat (length src) < 2 ^ 31.
  Lemma Cstr_load h p src : Cstr h p src -> load_n h (match p with None => nul | _ => p end) (Z.of_nat (length src)) = Ok src.
  Proof.
    intros (b & k & pre & post & -> & N & K & Ec & _ & _). eapply load_ok; eauto. destruct K as [-> | ->]; reflexivity.
  Qed.
  Lemma Cstr_outside h m l p src : Minv e h m l -> Cstr h p src -> Outside h m (match p with None => nul | _ => p end) (Z.of_nat (length src)).
  Proof.
    intros I (b & k & pre & post & -> & N & K & Ec & _ & _). right. exists b, (Z.of_nat (length pre)). split; [reflexivity|].
    split; [|apply nth_error_Some; congruence]. intros Eo.
    destruct (Minv_owned e h m l b I Eo) as ((k' & N' & K') & _). rewrite N in N'. injection N' as <-. destruct K; congruence.
  Qed.
  Lemma str_of_c_ok h p src : Cstr h p src ->
    exists m', str_of_c nul h p = Ok (h, m') /\ Step h mb_nil h m' /\ Minv e h m' src /\ Nul h m'.
  Proof.
    intros (b & k & pre & post & Eq & N & K & Ec & Sl & Hb). unfold str_of_c. rewrite Eq in *. rewrite Sl. cbn [bind].
    eexists. split; [reflexivity|]. split; [apply Step_same; reflexivity|].
    assert (Rk : readable (bkind k) = true) by (destruct K as [-> | ->]; reflexivity). split.
    - split; [cbn [msize]; lia|]. left. split; [reflexivity|]. right. exists b, k, pre, (Some 0 :: post).
      split; [reflexivity|]. split; [exact N|]. split; [exact K|]. split; [exact Ec|discriminate].
    - right. cbn [mptr msize padd]. eapply (load_ok' h b k _ 1 (pre ++ src) [Some 0] post N Rk).
      + rewrite <- app_assoc. exact Ec.
      + rewrite app_length. lia.
      + reflexivity.
  Qed.
  Lemma str_assign_c_ok h m l p src : Minv e h m l -> NulBlk nul h -> Cstr h p src ->
    exists h' m', str_assign_c e nul h m p = Ok (h', m') /\ Step h m h' m' /\ Minv e h' m' src /\ Nul h' m'.
  Proof.
    intros I B C. pose proof (Cstr_load _ _ _ C) as Ld. pose proof (Cstr_outside _ _ _ _ _ I C) as Ho.
    destruct C as (b & k & pre & post & Eq & N & K & Ec & Sl & Hb). unfold str_assign_c. rewrite Sl. cbn [bind].
    eapply str_assign_ok; eauto. lia.
  Qed.
  Lemma str_append_c_ok h m l p src : Minv e h m l -> NulBlk nul h -> Cstr h p src -> Z.of_nat (length l) + Z.of_nat (length src) < 2 ^ 31 ->
    exists h' m', str_append_c e nul h m p = Ok (h', m') /\ Step h m h' m' /\ Minv e h' m' (l ++ src) /\ Nul h' m'.
  Proof.
    intros I B C Hl. pose proof (Cstr_load _ _ _ C) as Ld. pose proof (Cstr_outside _ _ _ _ _ I C) as Ho.
    destruct C as (b & k & pre & post & Eq & N & K & Ec & Sl & Hb). unfold str_append_c. rewrite Sl. cbn [bind].
    eapply str_append_ok; eauto. lia.
  Qed.

  (** ** Substrings of another string *)
  Lemma sub_source h m x l o n : Minv e h x l -> Z.of_nat (length l) < 2 ^ 31 -> Outside h m (mptr x) (msize x) -> 0 <= o < 2 ^ 63 -> 0 <= n < 2 ^ 63 ->
    let f := clamp x o in let k := u64 (clamp x (u64 (o + n)) - clamp x o) in
    Outside h m (padd (mptr x) f) k /\ load_n h (padd (mptr x) f) k = Ok (upto n (from o l)) /\
    k = Z.of_nat (length (upto n (from o l))) /\ 0 <= k < 2 ^ 31.
  Proof.
    intros I Hb Ho H1 H2 f k. pose proof I as ((S & _) & _). unfold clamp in *. rewrite S in *.
    assert (U1 : u64 (o + n) = o + n) by (apply u64_small; lia).
    assert (Ek : k = Z.min (o + n) (Z.of_nat (length l)) - Z.min o (Z.of_nat (length l))) by (unfold k; rewrite U1, S; apply u64_small; lia).
    assert (Hf : 0 <= f /\ f = Z.min o (Z.of_nat (length l))) by (unfold f; lia).
    assert (Hk : 0 <= k /\ f + k <= Z.of_nat (length l)) by lia.
    assert (El : upto n (from o l) = firstn (Z.to_nat k) (skipn (Z.to_nat f) l)).
    { unfold upto, from. rewrite skipn_length. replace (Z.to_nat (Z.min o (Z.of_nat (length l)))) with (Z.to_nat f) by lia. f_equal. lia. }
    split; [eapply Outside_sub; eauto; lia|]. split; [rewrite El; apply (load_sub h (mptr x) (msize x)); [eapply Minv_load; eauto|lia..]|].
    split; [|lia]. rewrite El, firstn_length, skipn_length. lia.
  Qed.
End WithEnv.
