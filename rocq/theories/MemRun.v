(** * MemRun: histories over several memory blocks refine their specification. *)
From Verif Require Import Base UtilModel UtilProofs StoreModel StoreProofs VectorSpec MemModel MemSpec MemProofs.
From Coq Require Import ZArith ZifyBool ZifyNat.
Local Open Scope Z_scope.

(** ** put / get *)
Lemma put_length {A} (l : list A) i x : (i < length l)%nat -> length (put l i x) = length l.
Proof. intros H. unfold put. rewrite app_length, firstn_length. cbn [length]. rewrite skipn_length. lia. Qed.
Lemma put_same {A} (l : list A) i x : (i < length l)%nat -> nth_error (put l i x) i = Some x.
Proof.
  intros H. unfold put. rewrite nth_error_app2; rewrite firstn_length; [|lia].
  replace (i - Nat.min i (length l))%nat with 0%nat by lia. reflexivity.
Qed.
Lemma put_other {A} (l : list A) i j x : (i < length l)%nat -> j <> i -> nth_error (put l i x) j = nth_error l j.
Proof.
  intros H N. assert (E : l = firstn i l ++ skipn i l) by (symmetry; apply firstn_skipn).
  destruct (skipn i l) as [|y t] eqn:Sk.
  { assert (length (skipn i l) = 0)%nat by now rewrite Sk. rewrite skipn_length in H0. lia. }
  assert (S' : skipn (S i) l = t).
  { replace (S i) with (1 + i)%nat by lia. rewrite <- skipn_skipn, Sk. reflexivity. }
  unfold put. rewrite S'. rewrite E at 2.
  assert (LF : length (firstn i l) = i) by (rewrite firstn_length; lia).
  destruct (Nat.lt_ge_cases j i).
  - rewrite !nth_error_app1 by lia. reflexivity.
  - rewrite !nth_error_app2 by lia. rewrite LF. destruct (j - i)%nat eqn:D; [lia|]. reflexivity.
Qed.
Lemma upd_put {A} (l : list A) i x : (i < length l)%nat -> upd l i x = Some (put l i x).
Proof.
  revert i. induction l as [|y t IH]; intros [|i] H; cbn [length] in H; try lia; [reflexivity|].
  cbn [upd]. rewrite IH by lia. reflexivity.
Qed.
Lemma wr_put {A} (l : list A) i x : (i < length l)%nat -> wr l i x = Ok (put l i x).
Proof. intros H. unfold wr. now rewrite upd_put. Qed.
Lemma get_nth {A} (ss : list (list A)) i : (i < length ss)%nat -> nth_error ss i = Some (get ss i).
Proof. intros H. unfold get. now apply nth_error_nth'. Qed.
Lemma put_id {A} (l : list A) i x : nth_error l i = Some x -> put l i x = l.
Proof.
  revert i. induction l as [|y t IH]; intros [|i] H; try discriminate.
  - injection H as ->. reflexivity.
  - cbn [nth_error] in H. specialize (IH i H). unfold put in *. cbn [firstn skipn app]. f_equal. exact IH.
Qed.
Lemma put_get {A} (ss : list (list A)) i : (i < length ss)%nat -> put ss i (get ss i) = ss.
Proof. intros H. apply put_id. now apply get_nth. Qed.

(** ** agrees *)
Lemma agrees_refl l : agrees l l.
Proof. induction l; constructor; auto. Qed.
Lemma agrees_length s l : agrees s l -> length s = length l.
Proof. intros H. induction H; cbn [length]; lia. Qed.
Lemma agrees_app a b c d : agrees a c -> agrees b d -> agrees (a ++ b) (c ++ d).
Proof. apply Forall2_app. Qed.
Lemma agrees_firstn n s l : agrees s l -> agrees (firstn n s) (firstn n l).
Proof. intros H. revert n. induction H; intros [|n]; constructor; auto. apply IHForall2. Qed.
Lemma agrees_skipn n s l : agrees s l -> agrees (skipn n s) (skipn n l).
Proof. intros H. revert n. induction H; intros [|n]; cbn [skipn]; [constructor|constructor|constructor; auto|apply IHForall2]. Qed.
Lemma agrees_none l n : n = length l -> agrees (repeat None n) l.
Proof. intros ->. induction l; constructor; auto. Qed.
Lemma agrees_insert s l i n x : agrees s l -> (length x = n)%nat -> agrees (seq_insert s i (repeat None n)) (seq_insert l i x).
Proof. intros A L. unfold seq_insert. repeat apply agrees_app; auto using agrees_firstn, agrees_skipn. apply agrees_none. lia. Qed.
Lemma agrees_erase s l i n : agrees s l -> agrees (seq_erase s i n) (seq_erase l i n).
Proof. intros A. unfold seq_erase. apply agrees_app; auto using agrees_firstn, agrees_skipn. Qed.
Lemma agrees_resize s l n l' : agrees s l -> (length l' = n)%nat ->
  firstn (Nat.min n (length l)) l' = firstn (Nat.min n (length l)) l -> agrees (seq_resize s n None) l'.
Proof.
  intros A L F. unfold seq_resize. pose proof (agrees_length _ _ A) as LA.
  rewrite <- (firstn_skipn (Nat.min n (length l)) l'), F. apply agrees_app.
  - replace (firstn n s) with (firstn (Nat.min n (length l)) s); [now apply agrees_firstn|].
    rewrite <- LA, <- firstn_firstn. now rewrite firstn_all.
  - apply agrees_none. rewrite skipn_length. lia.
Qed.
Lemma agrees_put s l i x y : agrees s l -> x = y -> agrees (put s i x) (put l i y).
Proof. intros A ->. unfold put. apply agrees_app; [now apply agrees_firstn|]. constructor; auto. now apply agrees_skipn. Qed.

Section Run.
  Variable e : env.
  Hypothesis Henv : good_env e.
  Hypothesis Hmem : enough_memory e.
  Variable h0 : heap.
  Hypothesis Hc : callers h0.

  Record SInv (h : heap) (ms : list mb) (ss : list (list (option Z))) : Prop := mkSInv {
    s_len : length ms = length ss;
    s_h0 : (length h0 <= length h)%nat;
    s_frame : forall b, (b < length h0)%nat -> nth_error h b = nth_error h0 b;
    s_ok : forall i m, nth_error ms i = Some m -> exists l, Minv e h m l /\ agrees (get ss i) l;
    s_dist : forall i j mi mj b, i <> j -> nth_error ms i = Some mi -> nth_error ms j = Some mj ->
             owner mi = Some b -> owner mj <> Some b
  }.

  Lemma Minv_owned h m l b : Minv e h m l -> owner m = Some b -> owned_at h b /\ (b < length h)%nat.
  Proof.
    intros (_ & [L|O]) E; [rewrite (Linked_owner _ _ _ L) in E; discriminate|].
    destruct (Owning_owner e h m l O) as (b' & E' & _ & Ob). rewrite E in E'. injection E' as <-.
    split; [exact Ob|]. destruct Ob as (k & Hk & _). apply nth_error_Some. congruence.
  Qed.
  (** Another block's operation leaves this block alone. *)
  Lemma Minv_frame h m h' m' mj lj l : Step0 h m h' m' -> Minv e h m l -> Minv e h mj lj ->
    (forall b, owner m = Some b -> owner mj <> Some b) -> Minv e h' mj lj.
  Proof.
    intros (_ & F & _) I (S & [(C & K)|O]) D.
    - split; [exact S|]. left. split; [exact C|]. destruct K as [K|(b & k & pre & post & P & N & Kd & E)]; [left; exact K|].
      right. exists b, k, pre, post. split; [exact P|]. split; [|split; [exact Kd|exact E]].
      rewrite F; [exact N|apply nth_error_Some; congruence|].
      intros Eo. destruct (Minv_owned h m l b I Eo) as ((k' & N' & K') & _). rewrite N in N'. injection N' as <-.
      destruct Kd; congruence.
    - split; [exact S|]. right. pose proof O as (Hcc & b & r & P & N & L).
      destruct (Owning_owner e h mj lj O) as (b' & Ob & P' & _). rewrite P in P'. injection P' as <-.
      split; [exact Hcc|]. exists b, r. split; [exact P|]. split; [|exact L].
      rewrite F; [exact N|apply nth_error_Some; congruence|]. intros Eo. exact (D b Eo Ob).
  Qed.

  Lemma sinv_set h ms ss i m l h' m' l' s' : SInv h ms ss -> nth_error ms i = Some m -> Minv e h m l ->
    Step0 h m h' m' -> Minv e h' m' l' -> agrees s' l' -> SInv h' (put ms i m') (put ss i s').
  Proof.
    intros I Hm Im St Im' A. assert (Hi : (i < length ms)%nat) by (apply nth_error_Some; congruence).
    pose proof (s_len _ _ _ I) as SL.
    assert (Hget : forall j, nth_error (put ms i m') j = if Nat.eqb j i then Some m' else nth_error ms j).
    { intros j. destruct (Nat.eqb_spec j i) as [-> |N]; [now apply put_same|now apply put_other]. }
    pose proof St as (G & F & Cp). constructor.
    - now rewrite !put_length by lia.
    - pose proof (s_h0 _ _ _ I). lia.
    - intros b Hb. pose proof (s_h0 _ _ _ I). rewrite F; [now apply (s_frame _ _ _ I)|lia|].
      intros Eo. destruct (Minv_owned h m l b Im Eo) as ((k & N & K) & _). rewrite (s_frame _ _ _ I) in N by exact Hb.
      pose proof (nth_error_In _ _ N) as In0. unfold callers in Hc. rewrite Forall_forall in Hc. destruct (Hc _ In0); congruence.
    - intros j mj. rewrite Hget. destruct (Nat.eqb_spec j i) as [-> |N].
      + intros Ej. injection Ej as <-. exists l'. split; [exact Im'|]. unfold get.
        rewrite (nth_error_nth _ _ [] (put_same ss i s' ltac:(lia))). exact A.
      + intros Ej. destruct (s_ok _ _ _ I j mj Ej) as (lj & Ij & Aj). exists lj. split.
        * eapply Minv_frame; eauto. intros b Eo. eapply (s_dist _ _ _ I i j); eauto.
        * unfold get. assert (Hj : (j < length ss)%nat) by (rewrite <- SL; apply nth_error_Some; congruence).
          rewrite (nth_error_nth (put ss i s') j [] (x := get ss j)); [exact Aj|].
          rewrite put_other by lia. now apply get_nth.
    - assert (Q : forall j mj b, j <> i -> nth_error ms j = Some mj -> owner m' = Some b -> owner mj <> Some b).
      { intros j mj b N Ej Eo Ej2. destruct (s_ok _ _ _ I j mj Ej) as (lj & Ij & _).
        destruct (Minv_owned h mj lj b Ij Ej2) as (_ & Lb). pose proof (Cp b Eo Lb) as Em.
        exact (s_dist _ _ _ I i j m mj b ltac:(auto) Hm Ej Em Ej2). }
      intros j k mj mk b N. rewrite !Hget. destruct (Nat.eqb_spec j i) as [-> |Nj]; destruct (Nat.eqb_spec k i) as [-> |Nk].
      + congruence.
      + intros Ej Ek. injection Ej as <-. apply (Q k mk b Nk Ek).
      + intros Ej Ek Eo E2. injection Ek as <-. exact (Q j mj b Nj Ej E2 Eo).
      + apply (s_dist _ _ _ I); auto.
  Qed.

  (** Every allocated block has an owner. *)
  Definition NoLeak (h : heap) (ms : list mb) : Prop :=
    forall b, owned_at h b -> exists i m, nth_error ms i = Some m /\ owner m = Some b.
  Lemma noleak_set h ms i m h' m' : (i < length ms)%nat -> nth_error ms i = Some m -> Step h m h' m' ->
    NoLeak h ms -> NoLeak h' (put ms i m').
  Proof.
    intros Hi Em (G & F & C & D) NL b Ob.
    assert (Dec : owner m' = Some b \/ owner m' <> Some b) by (destruct (owner m') as [c|]; [destruct (Nat.eq_dec c b)|]; [left; congruence|right; congruence|right; discriminate]).
    destruct Dec as [E|N].
    - exists i, m'. split; [now apply put_same|exact E].
    - destruct (D b Ob N) as (Lb & Nb). destruct Ob as (k & Hk & K).
      destruct (NL b) as (j & mj & Ej & Eo). { exists k. split; [|exact K]. now rewrite <- F. }
      assert (j <> i) by congruence. exists j, mj. split; [|exact Eo]. now rewrite put_other.
  Qed.

  Lemma on_ok (cond : Prop) h ms ss i f : SInv h ms ss -> (i < length ss)%nat ->
    forall s', (forall m l, nth_error ms i = Some m -> Minv e h m l -> agrees (get ss i) l ->
       exists h' m' l', f h m = Ok (h', m') /\ (Step0 h m h' m' /\ (cond -> Step h m h' m')) /\ Minv e h' m' l' /\ agrees s' l') ->
    exists h' ms', on (h, ms) i f = Ok (h', ms') /\ SInv h' ms' (put ss i s') /\ (cond -> NoLeak h ms -> NoLeak h' ms').
  Proof.
    intros I Hi s' H. pose proof (s_len _ _ _ I) as SL.
    destruct (nth_error ms i) as [m|] eqn:Em; [|apply nth_error_None in Em; lia].
    destruct (s_ok _ _ _ I i m Em) as (l & Im & A). destruct (H m l eq_refl Im A) as (h' & m' & l' & E & (St & St') & Im' & A').
    unfold on, rd. rewrite Em. cbn [bind]. rewrite E. cbn [bind]. rewrite wr_put by lia. cbn [bind].
    exists h', (put ms i m'). split; [reflexivity|]. split; [eapply sinv_set; eauto|].
    intros Hcond. apply noleak_set with (m := m); [lia|exact Em|exact (St' Hcond)].
  Qed.
  Lemma on_same (cond : Prop) h ms ss i f : SInv h ms ss -> (i < length ss)%nat ->
    (forall m l, nth_error ms i = Some m -> Minv e h m l -> agrees (get ss i) l ->
       exists h' m' l', f h m = Ok (h', m') /\ (Step0 h m h' m' /\ (cond -> Step h m h' m')) /\ Minv e h' m' l' /\ agrees (get ss i) l') ->
    exists h' ms', on (h, ms) i f = Ok (h', ms') /\ SInv h' ms' ss /\ (cond -> NoLeak h ms -> NoLeak h' ms').
  Proof.
    intros I Hi H. destruct (on_ok cond h ms ss i f I Hi _ H) as (h' & ms' & E & I'). rewrite (put_get ss i Hi) in I'. eauto.
  Qed.
  Lemma both (cond : Prop) h m h' m' : Step h m h' m' -> Step0 h m h' m' /\ (cond -> Step h m h' m').
  Proof. intros S. split; [exact (Step_Step0 _ _ _ _ S)|auto]. Qed.

  Lemma load_h0 h ms ss p n : SInv h ms ss -> can_read h0 p n -> load_n h p n = Ok (bytes_at h0 p n) /\ load_n h0 p n = Ok (bytes_at h0 p n).
  Proof.
    intros I (l & E). unfold bytes_at. rewrite E. split; [|reflexivity]. unfold load_n in *.
    destruct (n =? 0); [exact E|]. destruct p as [[b o]|]; [|discriminate].
    unfold rd in *. rewrite (s_frame _ _ _ I); [exact E|].
    destruct (nth_error h0 b) eqn:N; [|discriminate]. apply nth_error_Some. congruence.
  Qed.
  Lemma outside_h0 h ms ss m l p n : SInv h ms ss -> Minv e h m l -> can_read h0 p n -> Outside h m p n.
  Proof.
    intros I Im (x & E). unfold Outside. unfold load_n in E. destruct (Z.eqb_spec n 0) as [-> |N]; [auto|]. right.
    destruct p as [[b o]|]; [|discriminate]. exists b, o. split; [reflexivity|]. unfold rd in E.
    destruct (nth_error h0 b) as [k|] eqn:Nb; [|discriminate].
    assert (Lb : (b < length h0)%nat) by (apply nth_error_Some; congruence).
    split; [|pose proof (s_h0 _ _ _ I); lia].
    intros Eo. destruct (Minv_owned h m l b Im Eo) as ((k' & N' & K) & _). rewrite (s_frame _ _ _ I) in N' by exact Lb.
    pose proof (nth_error_In _ _ N') as In0. unfold callers in Hc. rewrite Forall_forall in Hc. destruct (Hc _ In0); congruence.
  Qed.

  Lemma link_ok h ms ss m l p n : SInv h ms ss -> Minv e h m l -> 0 <= n <= 2 ^ 31 ->
    (p = None /\ n = 0) \/ can_read h0 p (n + 1) ->
    exists m', link p n = Ok m' /\ Step0 h m h m' /\ Minv e h m' (bytes_at h0 p n) /\ is_linked m' = true.
  Proof.
    intros I Im Hn [(-> & ->)|R].
    - exists (mkmb None 0 0). split; [reflexivity|].
      split; [split; [lia|split; [auto|intros b E; discriminate]]|].
      split; [|reflexivity].
      split; [cbn; lia|]. left. split; [reflexivity|]. left. split; reflexivity.
    - destruct R as (x & E). unfold load_n in E. replace (n + 1 =? 0) with false in E by lia.
      destruct p as [[b o]|]; [|discriminate]. unfold rd in E.
      destruct (nth_error h0 b) as [k|] eqn:Nb; [|discriminate]. cbn [bind] in E.
      destruct (readable (bkind k) && in_range o (n + 1) (bcells k)) eqn:RR; [|discriminate].
      apply andb_prop in RR. destruct RR as (RK & RI). unfold in_range in RI.
      assert (Lb : (b < length h0)%nat) by (apply nth_error_Some; congruence).
      pose proof (s_frame _ _ _ I b Lb) as Fb. rewrite Nb in Fb.
      exists (mkmb (Some (b, o)) n 0). cbn [link]. split; [reflexivity|].
      split; [split; [lia|split; [auto|intros b' E'; discriminate]]|]. split; [|reflexivity].
      assert (BA : bytes_at h0 (Some (b, o)) n = slice (bcells k) (Z.to_nat o) (Z.to_nat (o + n))).
      { unfold bytes_at, load_n. destruct (Z.eqb_spec n 0) as [-> |Nn].
        - unfold slice. replace (Z.to_nat (o + 0) - Z.to_nat o)%nat with 0%nat by lia. reflexivity.
        - unfold rd. rewrite Nb. cbn [bind]. rewrite RK. unfold in_range.
          replace ((0 <=? o) && (0 <=? n) && (o + n <=? Z.of_nat (length (bcells k)))) with true by lia. reflexivity. }
      destruct (slice_split (bcells k) (Z.to_nat o) (Z.to_nat (o + n))) as (pre & mid & post & Ec & L1 & L2 & Sl); [lia|lia|].
      rewrite BA, Sl. assert (Lm : length mid = Z.to_nat n) by lia.
      split; [cbn [msize]; lia|]. left. split; [reflexivity|]. right. exists b, k, pre, post.
      split; [cbn [mptr]; repeat f_equal; lia|]. split; [exact Fb|].
      pose proof (nth_error_In _ _ Nb) as In0. unfold callers in Hc. rewrite Forall_forall in Hc. split; [exact (Hc _ In0)|].
      split; [exact Ec|]. intros ->. assert (length (bcells k) = length pre + length mid)%nat by (rewrite Ec, !app_length; cbn; lia). lia.
  Qed.

  Lemma Minv_same h m l : Minv e h m l -> Z.of_nat (length l) <= 2 ^ 31.
  Proof. intros ((_ & H) & _). exact H. Qed.

  (** operator= from another block. *)
  Lemma copy_other h ms ss i j mi mj li lj : SInv h ms ss -> i <> j -> nth_error ms i = Some mi -> nth_error ms j = Some mj ->
    Minv e h mi li -> Minv e h mj lj -> Outside h mi (mptr mj) (msize mj).
  Proof.
    intros I N Ei Ej Ii Ij. destruct (Z.eq_dec (msize mj) 0) as [Z0|NZ]; [left; exact Z0|]. right.
    destruct Ij as ((S & _) & [(C & [(P & ->)|(b & k & pre & post & P & Nb & K & Ec & _)])|O]).
    - cbn in S. lia.
    - exists b, (Z.of_nat (length pre)). split; [exact P|]. split; [|apply nth_error_Some; congruence].
      intros Eo. destruct (Minv_owned h mi li b Ii Eo) as ((k' & N' & K') & _). rewrite Nb in N'. injection N' as <-. destruct K; congruence.
    - destruct (Owning_owner e h mj lj O) as (b & Ob & P & Oa). exists b, 0. split; [exact P|].
      split; [|destruct Oa as (k & Hk & _); apply nth_error_Some; congruence].
      intros Eo. exact (s_dist _ _ _ I i j mi mj b N Ei Ej Eo Ob).
  Qed.
  Lemma assign_self h m l : Minv e h m l ->
    exists h' m', assign e 0 h m (mptr m) (msize m) = Ok (h', m') /\ Step h m h' m' /\ Minv e h' m' l.
  Proof.
    intros I. pose proof I as ((S & Sb) & [L|O]).
    - destruct (assign_ok e Hmem 0 h m l (mptr m) (msize m) l) as (h' & m' & E & St & I' & _); try lia; auto.
      + destruct (Z.eq_dec (msize m) 0) as [Z0|NZ]; [left; exact Z0|right].
        pose proof (Linked_owner _ _ _ L) as Lo. rewrite Lo.
        destruct L as (C & [(P & ->)|(b & k & pre & post & P & Nb & K & Ec & _)]); [cbn in S; lia|].
        exists b, (Z.of_nat (length pre)). split; [exact P|]. split; [discriminate|apply nth_error_Some; congruence].
      + apply (Minv_load e); exact I.
      + exists h', m'. auto.
    - pose proof O as (Hcc & b & r & P & N & Lr). rewrite app_length in Lr.
      assert (E : assign e 0 h m (mptr m) (msize m) = (h <- store_n h (mptr m) l ;; Ok (h, m))).
      { unfold assign, resize. rewrite Z.add_0_r, u64_small by lia. replace (mcap m <? msize m) with false by lia.
        cbn [bind]. unfold copy_n. cbn [mptr]. rewrite (Minv_load e h m l I). cbn [bind]. now destruct m. }
      rewrite E. pose proof (store_in e h m [] l [] l) as SI. cbn [app length Z.of_nat] in SI. rewrite app_nil_r in SI.
      destruct SI as (h' & E' & St & I'); auto; [lia|].
      rewrite P in *. cbn [padd] in E'. rewrite Z.add_0_l in E'. rewrite E'. cbn [bind]. exists h', m.
      split; [reflexivity|]. auto.
  Qed.

  Lemma put_put_same {A} (l : list A) i x y : (i < length l)%nat -> put (put l i x) i y = put l i y.
  Proof.
    intros H. unfold put. assert (LF : length (firstn i l) = i) by (rewrite firstn_length; lia).
    rewrite (firstn_app i), LF, Nat.sub_diag, firstn_firstn, Nat.min_id. cbn [firstn]. rewrite app_nil_r.
    replace (S i) with (length (firstn i l ++ [x])) at 1 by (rewrite app_length, LF; cbn; lia).
    change (firstn i l ++ x :: skipn (S i) l) with (firstn i l ++ [x] ++ skipn (S i) l).
    rewrite app_assoc, skipn_app, Nat.sub_diag, skipn_all. reflexivity.
  Qed.

  Lemma swap_ok h ms ss i j : SInv h ms ss -> (i < length ss)%nat -> (j < length ss)%nat ->
    exists ms', swap_mb (h, ms) i j = Ok (h, ms') /\ SInv h ms' (put (put ss i (get ss j)) j (get ss i)) /\
      forall k, exists k', nth_error ms k = nth_error ms' k'.
  Proof.
    intros I Hi Hj. pose proof (s_len _ _ _ I) as SL.
    destruct (nth_error ms i) as [mi|] eqn:Ei; [|apply nth_error_None in Ei; lia].
    destruct (nth_error ms j) as [mj|] eqn:Ej; [|apply nth_error_None in Ej; lia].
    unfold swap_mb, rd. rewrite Ei, Ej. cbn [bind]. rewrite wr_put by lia. cbn [bind].
    rewrite wr_put by (rewrite put_length; lia). cbn [bind]. eexists. split; [reflexivity|].
    set (sw := fun k => if Nat.eqb k i then j else if Nat.eqb k j then i else k).
    assert (Hget : forall k, nth_error (put (put ms i mj) j mi) k = nth_error ms (sw k)).
    { intros k. unfold sw. destruct (Nat.eq_dec k j) as [-> |Nj].
      - rewrite put_same by (rewrite put_length; lia). rewrite Nat.eqb_refl. destruct (Nat.eqb_spec j i) as [-> |]; congruence.
      - rewrite put_other by (try rewrite put_length; lia). destruct (Nat.eqb_spec k i) as [-> |Ni].
        + rewrite put_same by lia. congruence.
        + rewrite put_other by lia. apply Nat.eqb_neq in Nj. now rewrite Nj. }
    assert (Hss : forall k, (k < length ss)%nat -> get (put (put ss i (get ss j)) j (get ss i)) k = get ss (sw k)).
    { intros k Hk. unfold sw. unfold get at 1. destruct (Nat.eq_dec k j) as [-> |Nj].
      - erewrite nth_error_nth; [|apply put_same; rewrite put_length; lia]. rewrite Nat.eqb_refl.
        destruct (Nat.eqb_spec j i) as [-> |]; reflexivity.
      - destruct (Nat.eqb_spec k i) as [-> |Ni].
        + erewrite nth_error_nth; [reflexivity|]. rewrite put_other by (try rewrite put_length; lia). apply put_same. lia.
        + erewrite nth_error_nth; [reflexivity|]. rewrite put_other by (try rewrite put_length; lia).
          rewrite put_other by lia. apply Nat.eqb_neq in Nj. rewrite Nj. now apply get_nth. }
    assert (Hinj : forall a b, a <> b -> sw a <> sw b).
    { intros a b. unfold sw. destruct (Nat.eqb_spec a i), (Nat.eqb_spec b i), (Nat.eqb_spec a j), (Nat.eqb_spec b j); lia. }
    split.
    - constructor.
      + rewrite !put_length; try rewrite put_length; lia.
      + apply (s_h0 _ _ _ I).
      + apply (s_frame _ _ _ I).
      + intros k m. intros Em.
        assert (Hk : (k < length ss)%nat).
        { assert (k < length (put (put ms i mj) j mi))%nat by (apply nth_error_Some; congruence).
          rewrite !put_length in H; try rewrite put_length; lia. }
        rewrite Hget in Em. rewrite Hss by exact Hk. exact (s_ok _ _ _ I _ _ Em).
      + intros a b ma mb' bb N Ea Eb. rewrite Hget in Ea, Eb. exact (s_dist _ _ _ I _ _ _ _ bb (Hinj a b N) Ea Eb).
    - intros k. exists (sw k). rewrite Hget. f_equal. unfold sw.
      destruct (Nat.eqb_spec k i) as [-> |]; [|destruct (Nat.eqb_spec k j) as [-> |]].
      + destruct (Nat.eqb_spec j i); [lia|]. now rewrite Nat.eqb_refl.
      + now rewrite Nat.eqb_refl.
      + destruct (Nat.eqb_spec k i); [lia|]. destruct (Nat.eqb_spec k j); [lia|]. reflexivity.
  Qed.

  Lemma sinv_len h ms ss i : SInv h ms ss -> forall m l, nth_error ms i = Some m -> agrees (get ss i) l -> len ss i = Z.of_nat (length l).
  Proof. intros _ m l _ A. unfold len. now rewrite (agrees_length _ _ A). Qed.

  Lemma mstep_ok h ms ss o : SInv h ms ss -> mop_pre h0 ss o ->
    exists h' ms', mstep e (h, ms) o = Ok (h', ms') /\ SInv h' ms' (mspec_step h0 ss o) /\
      (polite_op ms o -> NoLeak h ms -> NoLeak h' ms').
  Proof.
    intros I P. pose proof (s_len _ _ _ I) as SL. destruct o; cbn [mop_pre] in P; cbn [mstep mspec_step snd].
    - (* assign *)
      destruct P as (Hi & Hn & R). apply (on_ok _ h ms ss i _ I Hi). intros m l Em Im A.
      destruct (load_h0 _ _ _ _ _ I R) as (Ld & _).
      destruct (assign_ok e Hmem 0 h m l p n (bytes_at h0 p n)) as (h' & m' & E & St & I' & _); try lia; auto.
      + eapply outside_h0; eauto.
      + eapply load_length; [|exact Ld]. lia.
      + exists h', m', (bytes_at h0 p n). split; [exact E|]. split; [exact (both _ _ _ _ _ St)|]. split; [exact I'|apply agrees_refl].
    - (* copy *)
      destruct P as (Hi & Hj). destruct (nth_error ms j) as [mj|] eqn:Ej; [|apply nth_error_None in Ej; lia].
      unfold rd. rewrite Ej. cbn [bind]. destruct (s_ok _ _ _ I j mj Ej) as (lj & Ij & Aj).
      apply (on_ok _ h ms ss i _ I Hi). intros m l Em Im A.
      assert (X : exists h' m', assign e 0 h m (mptr mj) (msize mj) = Ok (h', m') /\ Step h m h' m' /\ Minv e h' m' lj).
      { destruct (Nat.eq_dec i j) as [-> |N].
        - rewrite Em in Ej. injection Ej as ->. apply assign_self. exact Ij.
        - destruct (assign_ok e Hmem 0 h m l (mptr mj) (msize mj) lj) as (h' & m' & E & St & I' & _); auto; try (destruct Ij as ((S & Sb) & _); lia).
          + exact (copy_other h ms ss i j m mj l lj I N Em Ej Im Ij).
          + apply (Minv_load e); exact Ij.
          + exists h', m'. auto. }
      destruct X as (h' & m' & E & St & I'). exists h', m', lj. split; [exact E|]. split; [exact (both _ _ _ _ _ St)|]. auto.
    - destruct P as (Hi & Hj). destruct (swap_ok h ms ss i j I Hi Hj) as (ms' & E & I' & Pm). exists h, ms'. split; [exact E|]. split; [exact I'|].
      intros _ NL b Ob. destruct (NL b Ob) as (k & m & Ek & Eo). destruct (Pm k) as (k' & Pk). exists k', m. split; [congruence|exact Eo].
    - destruct P as (Hi & Hj). destruct (swap_ok h ms ss i j I Hi Hj) as (ms' & E & I' & Pm). exists h, ms'. split; [exact E|]. split; [exact I'|].
      intros _ NL b Ob. destruct (NL b Ob) as (k & m & Ek & Eo). destruct (Pm k) as (k' & Pk). exists k', m. split; [congruence|exact Eo].
    - (* link *)
      destruct P as (Hi & Hn & R). apply (on_ok _ h ms ss i _ I Hi). intros m l Em Im A.
      destruct (link_ok h ms ss m l p n I Im Hn R) as (m' & E & St & I' & Lk).
      exists h, m', (bytes_at h0 p n). rewrite E. cbn [bind]. split; [reflexivity|]. split; [|split; [exact I'|apply agrees_refl]].
      split; [exact St|]. intros Pl. cbn [polite_op] in Pl. pose proof (Pl m Em) as Lm. apply Step_same.
      unfold owner, is_linked in *. now rewrite Lk, Lm.
    - (* deallocate *)
      apply (on_ok _ h ms ss i _ I P). intros m l Em Im A. destruct (dealloc_ok e h m l Im) as (h' & E & St & I').
      exists h', mb_nil, []. split; [exact E|]. split; [exact (both _ _ _ _ _ St)|]. split; [exact I'|apply agrees_refl].
    - (* manage *)
      destruct P as (Hi & Hl & Hb). apply (on_ok _ h ms ss i _ I Hi). intros m l' Em Im A.
      assert (Lp : 0 < Z.of_nat (length l)) by (destruct l; [congruence|cbn [length]; lia]).
      unfold realloc. rewrite Hmem by lia. unfold push_blk. cbn [bind]. rewrite Nat2Z.id.
      set (h1 := h ++ _).
      assert (N1 : nth_error h1 (length h) = Some (mkblk (repeat None (length l)) (malloc_at e (Z.of_nat (length l))) Owned)).
      { unfold h1. rewrite nth_error_app2, Nat.sub_diag by lia. cbn [nth_error]. now rewrite repeat_length. }
      destruct (store_ok h1 (length h) _ 0 [] (repeat None (length l)) [] (map Some l) N1 eq_refl) as (h2 & E2 & W2).
      { cbn [bcells app]. now rewrite app_nil_r. }
      { now rewrite repeat_length, map_length. }
      { reflexivity. }
      rewrite E2. cbn [bind manage link mptr msize]. exists h2, (mkmb (Some (length h, 0)) (Z.of_nat (length l)) (Z.of_nat (length l))), (map Some l).
      split; [reflexivity|]. destruct W2 as (L2 & W2 & F2). cbn [app bbase bkind] in W2.
      assert (L1 : length h1 = S (length h)) by (unfold h1; rewrite app_length; cbn; lia).
      split; [|split; [|apply agrees_refl]].
      + assert (OM : owner (mkmb (Some (length h, 0)) (Z.of_nat (length l)) (Z.of_nat (length l))) = Some (length h)).
        { unfold owner. cbn [mcap mptr]. now replace (Z.of_nat (length l) =? 0) with false by lia. }
        split.
        2:{ intros Pl. cbn [polite_op] in Pl. pose proof (Pl m Em) as Lm.
            apply Step_trans with (h1 := h1) (m1 := mkmb (Some (length h, 0)) (Z.of_nat (length l)) (Z.of_nat (length l))).
            - unfold h1. apply fresh_step; auto. intros b _. unfold owner, is_linked in *. rewrite Lm. discriminate.
            - eapply hset_step; [exact OM|exact OM|]. split; [exact L2|]. split; [exact W2|exact F2]. }
        split; [lia|]. split.
        * intros b Hb' _. rewrite F2 by lia. unfold h1. now rewrite nth_error_app1 by lia.
        * intros b Eo Hb'. unfold owner in Eo. cbn [mcap mptr] in Eo. replace (Z.of_nat (length l) =? 0) with false in Eo by lia. injection Eo as <-. lia.
      + split; [cbn [msize]; rewrite map_length; lia|]. right. split; [cbn [mcap]; lia|]. exists (length h), []. cbn [mptr mcap].
        split; [reflexivity|]. split; [exact W2|]. rewrite app_nil_r, map_length. reflexivity.
    - (* reserve *)
      destruct P as (Hi & Hn). apply (on_same _ h ms ss i _ I Hi). intros m l Em Im A.
      pose proof (sinv_len _ _ _ _ I _ _ Em A) as Ll. rewrite Ll in Hn.
      destruct (reserve_ok e Hmem 0 h m l n exact) as (h' & m' & E & St & I' & _); try lia; auto.
      exists h', m', l. split; [exact E|]. split; [exact (both _ _ _ _ _ St)|]. auto.
    - (* resize *)
      destruct P as (Hi & Hn). apply (on_ok _ h ms ss i _ I Hi). intros m l Em Im A.
      destruct (resize_ok e Hmem 0 h m l n exact) as (h' & m' & l' & E & St & I' & _ & L & F & _); try lia; auto.
      exists h', m', l'. split; [exact E|]. split; [exact (both _ _ _ _ _ St)|]. split; [exact I'|]. eapply agrees_resize; eauto.
    - (* copy_link *)
      apply (on_same _ h ms ss i _ I P). intros m l Em Im A. unfold copy_link.
      pose proof Im as ((S & Sb) & _).
      destruct (reserve_ok e Hmem 0 h m l (msize m) false) as (h' & m' & E & St & I' & _); try lia; auto.
      exists h', m', l. split; [exact E|]. split; [exact (both _ _ _ _ _ St)|]. auto.
    - (* shrink *)
      apply (on_same _ h ms ss i _ I P). intros m l Em Im A.
      destruct (shrink_ok e Hmem h m l Im) as (h' & m' & E & St & I').
      exists h', m', l. split; [exact E|]. split; [exact (both _ _ _ _ _ St)|]. auto.
    - (* insert *)
      destruct P as (Hi & Hip & Hn & Hb & G). apply (on_ok _ h ms ss i _ I Hi). intros m l Em Im A.
      pose proof (sinv_len _ _ _ _ I _ _ Em A) as Ll. rewrite Ll in *.
      destruct (insert_ok e Henv Hmem 0 h m l ip n) as (h' & m' & x & E & St & I' & Lx & _); try lia; auto.
      exists h', m', (seq_insert l (Z.to_nat ip) x). split; [exact E|]. split; [exact (both _ _ _ _ _ St)|]. split; [exact I'|].
      now apply agrees_insert.
    - (* erase *)
      destruct P as (Hi & Hep & Hn & Hen & G). apply (on_ok _ h ms ss i _ I Hi). intros m l Em Im A.
      pose proof (sinv_len _ _ _ _ I _ _ Em A) as Ll. rewrite Ll in *. pose proof Im as ((_ & Sb) & _).
      destruct (erase_ok e Henv Hmem 0 h m l ep n) as (h' & m' & E & St & I' & _); try lia; auto.
      exists h', m', (seq_erase l (Z.to_nat ep) (Z.to_nat n)). split; [exact E|]. split; [exact (both _ _ _ _ _ St)|]. split; [exact I'|].
      now apply agrees_erase.
    - (* clear *)
      apply (on_ok _ h ms ss i _ I P). intros m l Em Im A. unfold clear.
      destruct (resize_ok e Hmem 0 h m l 0 true) as (h' & m' & l' & E & St & I' & _ & L & _); try lia; auto.
      exists h', m', l'. split; [exact E|]. split; [exact (both _ _ _ _ _ St)|]. split; [exact I'|].
      destruct l'; [constructor|cbn in L; lia].
    - (* write *)
      destruct P as (Hi & Hpos). apply (on_ok _ h ms ss i _ I Hi). intros m l Em Im A. unfold write_at, copy_link.
      pose proof (sinv_len _ _ _ _ I _ _ Em A) as Ll. rewrite Ll in Hpos.
      pose proof Im as ((S & Sb) & _).
      destruct (reserve_ok e Hmem 0 h m l (msize m) false) as (h1 & m1 & E & St & I1 & C1); try lia; auto.
      rewrite E. cbn [bind]. pose proof I1 as ((S1 & _) & _). rewrite S1.
      replace ((0 <=? pos) && (pos <? Z.of_nat (length l))) with true by lia.
      destruct (nth_error l (Z.to_nat pos)) as [y|] eqn:Ey; [|apply nth_error_None in Ey; lia].
      apply nth_error_split in Ey. destruct Ey as (pre & post & El & Lp).
      rewrite El in I1. destruct (store_in e h1 m1 pre [y] post [Some x] I1) as (h2 & E2 & St2 & I2); [intros _; lia|reflexivity|].
      replace (Z.of_nat (length pre)) with pos in E2 by lia. rewrite E2. cbn [bind]. exists h2, m1, (pre ++ [Some x] ++ post).
      split; [reflexivity|]. split; [exact (both _ _ _ _ _ (Step_trans _ _ _ _ _ _ St St2))|]. split; [exact I2|].
      replace (pre ++ [Some x] ++ post) with (put l (Z.to_nat pos) (Some x)); [now apply agrees_put|].
      rewrite El. unfold put. rewrite <- Lp, firstn_app, Nat.sub_diag, firstn_all. cbn [firstn]. rewrite app_nil_r. cbn [app]. do 2 f_equal.
      change (pre ++ y :: post) with (pre ++ [y] ++ post). rewrite app_assoc.
      replace (Datatypes.S (length pre)) with (length (pre ++ [y])) by (rewrite app_length; cbn; lia).
      rewrite skipn_app, Nat.sub_diag, skipn_all. reflexivity.
  Qed.

  Lemma mrun_sinv ops : forall h ms ss, SInv h ms ss -> mops_pre h0 ss ops ->
    exists h' ms', mrun e (h, ms) ops = Ok (h', ms') /\ SInv h' ms' (mspec_run h0 ss ops) /\
      (polite e (h, ms) ops -> NoLeak h ms -> NoLeak h' ms').
  Proof.
    induction ops as [|o t IH]; intros h ms ss I P; [exists h, ms; split; [reflexivity|]; split; auto|].
    cbn [mops_pre] in P. destruct P as (P1 & P2). destruct (mstep_ok h ms ss o I P1) as (h1 & ms1 & E1 & I1 & N1).
    cbn [mrun mspec_run polite]. rewrite E1. cbn [bind].
    destruct (IH h1 ms1 _ I1 P2) as (h2 & ms2 & E2 & I2 & N2). exists h2, ms2. split; [exact E2|]. split; [exact I2|].
    intros (Pl & Pt) NL. apply N2; auto.
  Qed.

  Lemma sinv_init k : SInv h0 (repeat mb_nil k) (repeat [] k).
  Proof.
    constructor.
    - now rewrite !repeat_length.
    - lia.
    - auto.
    - intros i m E. apply nth_error_In, repeat_spec in E. subst m. exists [].
      split; [split; [cbn; lia|]; left; split; [reflexivity|]; left; auto|].
      unfold get. replace (nth i (repeat [] k) []) with (@nil (option Z)); [constructor|].
      destruct (nth_in_or_default i (repeat (@nil (option Z)) k) []) as [H| ->]; [|reflexivity].
      now apply repeat_spec in H.
    - intros i j mi mj b _ E _ O. apply nth_error_In, repeat_spec in E. subst mi. discriminate.
  Qed.
  Lemma noleak_init k : NoLeak h0 (repeat mb_nil k).
  Proof.
    intros b (x & Hx & K). apply nth_error_In in Hx. unfold callers in Hc. rewrite Forall_forall in Hc.
    destruct (Hc _ Hx); congruence.
  Qed.

  Lemma minv_result h m s l : Minv e h m l -> agrees s l -> mresult h m s.
  Proof.
    intros I A. pose proof I as ((S & Sb) & _). split; [rewrite (agrees_length _ _ A); exact S|]. split.
    - exists l. split; [exact (Minv_load e h m l I)|exact A].
    - unfold owns_storage, is_linked. intros NL. destruct I as (_ & [(C & _)|(Hcc & b & r & P & N & L)]); [rewrite C in NL; discriminate|].
      exists b, (mkblk (l ++ r) (malloc_at e (mcap m)) Owned). split; [exact P|]. split; [exact N|]. split; [reflexivity|].
      cbn [bcells]. split; [exact L|]. rewrite app_length in L. lia.
  Qed.
  Lemma sinv_result h ms ss : SInv h ms ss -> Forall2 (mresult h) ms ss.
  Proof.
    intros I. assert (G : forall i m, nth_error ms i = Some m -> mresult h m (get ss i)).
    { intros i m E. destruct (s_ok _ _ _ I i m E) as (l & Im & A). eapply minv_result; eauto. }
    pose proof (s_len _ _ _ I) as L. clear I. revert ss L G. induction ms as [|m t IH]; intros [|x u] L G; cbn in L; try lia; [constructor|].
    constructor; [exact (G 0%nat m eq_refl)|]. apply IH; [lia|]. intros i mm E. exact (G (S i) mm E).
  Qed.
  Lemma sinv_foreign h ms ss : SInv h ms ss -> firstn (length h0) h = h0.
  Proof.
    intros I. pose proof (s_frame _ _ _ I) as F. pose proof (s_h0 _ _ _ I) as L. clear I Hc. revert h F L.
    induction h0 as [|x t IH]; intros h F L; [reflexivity|].
    destruct h as [|y u]; [cbn in L; lia|]. pose proof (F 0%nat ltac:(cbn; lia)) as E. cbn in E. injection E as ->.
    cbn [length firstn]. f_equal. apply IH; [|cbn in L; lia]. intros b Hb. exact (F (S b) ltac:(cbn; lia)).
  Qed.

  Lemma dealloc_step h ms ss i : SInv h ms ss -> (i < length ss)%nat ->
    exists h', mstep e (h, ms) (MDealloc i) = Ok (h', put ms i mb_nil).
  Proof.
    intros I Hi. pose proof (s_len _ _ _ I) as SL. cbn [mstep]. unfold on, rd.
    destruct (nth_error ms i) as [m|] eqn:Em; [|apply nth_error_None in Em; lia]. cbn [bind].
    destruct (s_ok _ _ _ I i m Em) as (l & Im & _). destruct (dealloc_ok e h m l Im) as (h' & E & _). rewrite E. cbn [bind].
    rewrite wr_put by lia. cbn [bind]. eauto.
  Qed.
  Lemma dealloc_run idx : forall h ms ss, SInv h ms ss -> Forall (fun i => i < length ss)%nat idx -> NoLeak h ms ->
    exists h' ms', mrun e (h, ms) (map MDealloc idx) = Ok (h', ms') /\ NoLeak h' ms' /\ length ms' = length ms /\
      (forall i m, nth_error ms' i = Some m -> In i idx \/ nth_error ms i = Some mb_nil -> m = mb_nil).
  Proof.
    induction idx as [|a t IH]; intros h ms ss I Fa NL.
    - exists h, ms. split; [reflexivity|]. split; [exact NL|]. split; [reflexivity|]. intros i m E [[]|E2]. congruence.
    - inversion Fa as [|? ? Ha Ft]; subst. destruct (dealloc_step h ms ss a I Ha) as (h1 & E1).
      destruct (mstep_ok h ms ss (MDealloc a) I Ha) as (h1' & ms1 & E1' & I1 & N1). rewrite E1 in E1'. injection E1' as <- <-.
      pose proof (s_len _ _ _ I) as SL.
      destruct (IH h1 _ _ I1) as (h2 & ms2 & E2 & N2 & L2 & G2); [cbn [mspec_step]; rewrite put_length by exact Ha; exact Ft|exact (N1 Logic.I NL)|].
      exists h2, ms2. split; [change (map MDealloc (a :: t)) with (MDealloc a :: map MDealloc t); cbn [mrun]; rewrite E1; exact E2|].
      split; [exact N2|]. split; [rewrite L2; apply put_length; lia|].
      intros i m Em Hi. apply (G2 i m Em). destruct (Nat.eq_dec i a) as [-> |Na]; [right; apply put_same; lia|].
      destruct Hi as [[Hi|Hi]|Hi]; [congruence|left; exact Hi|right; rewrite put_other by lia; exact Hi].
  Qed.
  Lemma mrun_app a b s : mrun e s (a ++ b) = bind (mrun e s a) (fun s' => mrun e s' b).
  Proof. revert s. induction a as [|o t IH]; intros s; [reflexivity|]. cbn [app mrun]. destruct (mstep e s o); cbn [bind]; auto. Qed.
  Lemma mspec_len ops : forall ss, mops_pre h0 ss ops -> length (mspec_run h0 ss ops) = length ss.
  Proof.
    induction ops as [|o t IH]; intros ss P; [reflexivity|]. cbn [mops_pre mspec_run] in *. destruct P as (P & Pt).
    rewrite IH by exact Pt. destruct o; cbn [mop_pre mspec_step] in *; try (apply put_length; lia); try reflexivity;
    rewrite !put_length; try rewrite put_length; lia.
  Qed.

  (** ** The theorems *)
  Lemma mrun_correct k ops : mops_pre h0 (repeat [] k) ops ->
    exists h ms, mrun e (h0, repeat mb_nil k) ops = Ok (h, ms) /\
      Forall2 (mresult h) ms (mspec_run h0 (repeat [] k) ops) /\ firstn (length h0) h = h0.
  Proof.
    intros P. destruct (mrun_sinv ops _ _ _ (sinv_init k) P) as (h & ms & E & I & _). exists h, ms.
    split; [exact E|]. split; [now apply sinv_result|]. eapply sinv_foreign; eauto.
  Qed.
  Lemma mrun_noleak k ops : mops_pre h0 (repeat [] k) ops -> polite e (h0, repeat mb_nil k) ops ->
    exists h ms, mrun e (h0, repeat mb_nil k) (ops ++ map MDealloc (seq 0 k)) = Ok (h, ms) /\ all_freed h.
  Proof.
    intros P Pl. destruct (mrun_sinv ops _ _ _ (sinv_init k) P) as (h & ms & E & I & N).
    rewrite mrun_app, E. cbn [bind].
    pose proof (mspec_len _ _ P) as SL. rewrite repeat_length in SL.
    destruct (dealloc_run (seq 0 k) h ms _ I) as (h' & ms' & E' & NL' & L' & G).
    { rewrite SL. apply Forall_forall. intros i Hi. apply in_seq in Hi. lia. }
    { apply N; [exact Pl|apply noleak_init]. }
    exists h', ms'. split; [exact E'|]. apply Forall_forall. intros x Hx K.
    apply In_nth_error in Hx. destruct Hx as (b & Hb). destruct (NL' b) as (i & m & Ei & Eo); [exists x; auto|].
    assert (m = mb_nil).
    { apply (G i m Ei). left. apply in_seq. split; [lia|]. cbn.
      assert (i < length ms')%nat by (apply nth_error_Some; congruence). rewrite L', (s_len _ _ _ I), SL in H. exact H. }
    subst m. discriminate.
  Qed.
End Run.
