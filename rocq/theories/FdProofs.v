(** * FdProofs *)
From Verif Require Import Base UtilModel StreamModel FdModel FdSpec.
From Coq Require Import ZArith Lia.

(** ** Open modes *)
Lemma om_loop_low tbl : forall i m fl, (0 <= i)%Z -> (i + Z.of_nat (length tbl) <= 9)%Z ->
  om_loop tbl i m fl = om_loop tbl i (m mod 512) fl.
Proof.
  induction tbl as [|f t IH]; intros i m fl Hi H; [reflexivity|]. cbn [om_loop].
  cbn [length] in H. rewrite IH by lia. f_equal. f_equal.
  assert (E : Z.land m (Z.shiftl 1 i) = Z.land (m mod 512) (Z.shiftl 1 i)); [|now rewrite E].
  apply Z.bits_inj'. intros j Hj. rewrite !Z.land_spec, Z.shiftl_spec by lia.
  change 512%Z with (2 ^ 9)%Z. destruct (Z.lt_ge_cases j 9).
  - rewrite Z.mod_pow2_bits_low by lia. reflexivity.
  - replace (Z.testbit 1 (j - i)) with false; [now rewrite !andb_false_r|].
    symmetry. apply (Z.bits_above_log2 1 (j - i)); cbn; lia.
Qed.
Lemma land_low m x : (0 <= x < 512)%Z -> Z.land m x = Z.land (m mod 512) x.
Proof.
  intro H. apply Z.bits_inj'. intros j Hj. rewrite !Z.land_spec.
  change 512%Z with (2 ^ 9)%Z. destruct (Z.lt_ge_cases j 9).
  - rewrite Z.mod_pow2_bits_low by lia. reflexivity.
  - replace (Z.testbit x j) with false; [now rewrite !andb_false_r|].
    symmetry. rewrite <- (Z.mod_small x (2 ^ 9)) by (cbn; lia). apply Z.mod_pow2_bits_high. lia.
Qed.
Lemma om_low m : om_to_flags m = om_to_flags (m mod 512).
Proof.
  unfold om_to_flags. rewrite (om_loop_low omflags 0 m) by (cbn; lia).
  rewrite (land_low m om_nocreate) by (unfold om_nocreate; lia).
  replace (Z.land (u32 (m - 1)) O_ACCMODE) with (Z.land (u32 (m mod 512 - 1)) O_ACCMODE); [reflexivity|].
  unfold u32, O_ACCMODE. change 3%Z with (Z.ones 2). rewrite !Z.land_ones by lia.
  change (2 ^ 2)%Z with 4%Z.
  assert (E : forall a, ((a mod 4294967296) mod 4 = a mod 4)%Z).
  { intro a. rewrite (Z.div_mod a 4294967296) at 2 by lia.
    replace (4294967296 * (a / 4294967296))%Z with ((1073741824 * (a / 4294967296)) * 4)%Z by lia.
    rewrite Z.add_comm, Z.mod_add by lia. reflexivity. }
  change (2 ^ 32)%Z with 4294967296%Z. rewrite !E.
  rewrite (Z.div_mod m 512) at 2 by lia.
  replace (512 * (m / 512) + m mod 512 - 1)%Z with ((m mod 512 - 1) + (128 * (m / 512)) * 4)%Z by lia.
  rewrite Z.mod_add by lia. reflexivity.
Qed.
Lemma testbit_low m i : (0 <= i < 9)%Z -> Z.testbit m i = Z.testbit (m mod 512) i.
Proof. intro H. change 512%Z with (2 ^ 9)%Z. now rewrite Z.mod_pow2_bits_low by lia. Qed.
Definition modes512 : list Z := map Z.of_nat (seq 0 512).
Lemma in_modes m : In (m mod 512)%Z modes512.
Proof.
  unfold modes512. apply in_map_iff. exists (Z.to_nat (m mod 512)).
  pose proof (Z.mod_pos_bound m 512 ltac:(lia)). split; [lia|]. apply in_seq. lia.
Qed.
Definition om_check (m : Z) : bool :=
  let fl := om_to_flags m in
  let t := Z.testbit m in
  let acc := Z.land fl 3 in
  (if t 0%Z || t 1%Z then
     Bool.eqb ((acc =? 0) || (acc =? 2))%Z (t 0%Z) && Bool.eqb ((acc =? 1) || (acc =? 2))%Z (t 1%Z)
   else (acc =? 3)%Z) &&
  Bool.eqb (negb (Z.land fl O_CREAT =? 0)%Z) (t 1%Z && negb (t 7%Z)) &&
  Bool.eqb (negb (Z.land fl O_TRUNC =? 0)%Z) (t 5%Z) &&
  Bool.eqb (negb (Z.land fl O_APPEND =? 0)%Z) (t 2%Z || t 3%Z) &&
  Bool.eqb (negb (Z.land fl O_NONBLOCK =? 0)%Z) (t 6%Z) &&
  Bool.eqb (negb (Z.land fl O_NOCTTY =? 0)%Z) (t 8%Z).
Lemma om_checked : forallb om_check modes512 = true.
Proof. vm_compute. reflexivity. Qed.
Lemma om_facts m : om_check m = true.
Proof.
  assert (E : om_check m = om_check (m mod 512)).
  { unfold om_check. rewrite om_low. rewrite !(testbit_low m) by lia. reflexivity. }
  rewrite E. exact (proj1 (forallb_forall _ _) om_checked _ (in_modes m)).
Qed.
Lemma flag_iff fl b c : Bool.eqb (negb (Z.land fl b =? 0)%Z) c = true -> (flag fl b <-> c = true).
Proof. unfold flag. destruct (Z.eqb_spec (Z.land fl b) 0), c; cbn; intro H; try discriminate; split; congruence. Qed.

(** ** Descriptors *)
Lemma lowest_free tab : nth (lowest tab) tab None = None /\ lowest tab <= length tab.
Proof.
  induction tab as [|[x|] t [IH1 IH2]]; cbn [lowest length nth]; [split; auto| |split; [reflexivity|lia]].
  split; [exact IH1|lia].
Qed.
Lemma nth_put tab fd x n : fd <= length tab -> nth n (put_fd tab fd x) None = if n =? fd then x else nth n tab None.
Proof.
  intro H. unfold put_fd. assert (L : length (firstn fd tab) = fd) by (rewrite firstn_length; lia).
  destruct (Nat.eqb_spec n fd) as [->|N].
  - rewrite app_nth2, L, Nat.sub_diag by lia. reflexivity.
  - destruct (Nat.lt_ge_cases n fd).
    + rewrite app_nth1 by lia. rewrite <- (firstn_skipn fd tab) at 2. rewrite app_nth1 by lia. reflexivity.
    + rewrite app_nth2, L by lia. destruct (n - fd) as [|d] eqn:E; [lia|]. cbn [nth].
      rewrite <- (firstn_skipn (S fd) tab) at 2.
      destruct (Nat.le_gt_cases (S fd) (length tab)).
      * rewrite app_nth2; rewrite firstn_length; [|lia]. f_equal. lia.
      * rewrite skipn_all2 by lia. rewrite app_nil_r, (nth_overflow (firstn _ _)) by (rewrite firstn_length; lia).
        destruct d; reflexivity.
Qed.
Lemma nth_some_lt tab n (id : nat) : nth n tab None = Some id -> n < length tab.
Proof. intro H. destruct (Nat.lt_ge_cases n (length tab)); [assumption|]. rewrite nth_overflow in H by lia. discriminate. Qed.

(** The state: [own i] is the descriptor of fstream [i]. *)
Record Inv (k : kern) (own : nat -> option nat) : Prop := {
  v_fd : forall i n, own i = Some n -> exists id, nth n (k_tab k) None = Some id /\ In id (k_mine k) /\
           ~ In id (k_given k);
  v_inj : forall i j n, own i = Some n -> own j = Some n -> i = j;
  v_nodup : NoDup (k_closed k);
  v_closed : forall id, In id (k_closed k) -> In id (k_mine k) /\ ~ In id (k_given k) /\
               forall n, nth n (k_tab k) None <> Some id;
  v_given : forall id, In id (k_given k) -> In id (k_mine k);
  v_gnodup : NoDup (k_given k);
  v_tab : forall n m id, nth n (k_tab k) None = Some id -> nth m (k_tab k) None = Some id -> n = m;
  v_next : forall n id, nth n (k_tab k) None = Some id -> id < k_next k;
  v_mine : forall id, In id (k_mine k) -> id < k_next k;
  v_all : forall id, In id (k_mine k) -> In id (k_given k) \/ In id (k_closed k) \/
            exists i n, own i = Some n /\ nth n (k_tab k) None = Some id }.
Definition owner (fs : list fstr) (i : nat) : option nat := match nth_error fs i with Some f => fs_fd f | None => None end.
Definition setown (own : nat -> option nat) (i : nat) (x : option nat) (j : nat) : option nat := if j =? i then x else own j.

Lemma inv_ext k own own' : (forall i, own i = own' i) -> Inv k own -> Inv k own'.
Proof.
  intros E [A B C D F G H I J K]. constructor; auto.
  - intros i n Hi. rewrite <- E in Hi. eauto.
  - intros i j n Hi Hj. rewrite <- E in Hi, Hj. eauto.
  - intros id Hid. destruct (K id Hid) as [X|[X|(i & n & X & Y)]]; auto. right. right. exists i, n. rewrite <- E. auto.
Qed.
(** Only the schedules differ. *)
Definition same_files (k k' : kern) : Prop :=
  k_tab k = k_tab k' /\ k_next k = k_next k' /\ k_mine k = k_mine k' /\ k_closed k = k_closed k' /\ k_given k = k_given k'.
Lemma inv_sched k k' own : same_files k k' -> Inv k own -> Inv k' own.
Proof. intros (A & B & C & D & E) [F G H I J K L M N O]. constructor; rewrite <- ?A, <- ?B, <- ?C, <- ?D, <- ?E; assumption. Qed.

(** A file that is opened and put into fstream [i], which has none. *)
Lemma inv_open k own i : Inv k own -> own i = None ->
  forall t c, Inv (mkk (put_fd (k_tab k) (lowest (k_tab k)) (Some (k_next k))) (S (k_next k)) (k_next k :: k_mine k) (k_closed k) (k_given k) t c)
      (setown own i (Some (lowest (k_tab k)))).
Proof.
  intros [A B C D F G H I J K] N t c. destruct (lowest_free (k_tab k)) as [L1 L2].
  assert (P : forall n, nth n (put_fd (k_tab k) (lowest (k_tab k)) (Some (k_next k))) None =
              if n =? lowest (k_tab k) then Some (k_next k) else nth n (k_tab k) None) by (intro n; apply nth_put, L2).
  assert (U : forall j, own j <> Some (lowest (k_tab k))).
  { intros j E. destruct (A _ _ E) as (id & E1 & _). congruence. }
  assert (Fresh : forall n, nth n (k_tab k) None <> Some (k_next k)) by (intros n E; apply I in E; lia).
  assert (Fm : ~ In (k_next k) (k_mine k)) by (intro E; apply J in E; lia).
  constructor; cbn [k_tab k_next k_mine k_closed k_given]; unfold setown.
  - intros j n E. rewrite P. destruct (Nat.eqb_spec j i).
    + injection E as <-. rewrite Nat.eqb_refl. exists (k_next k). split; [reflexivity|]. split; [left; reflexivity|].
      intro X. apply F in X. auto.
    + destruct (Nat.eqb_spec n (lowest (k_tab k))) as [->|]; [elim (U _ E)|].
      destruct (A _ _ E) as (id & X & Y & W). exists id. split; [exact X|]. split; [right; exact Y|exact W].
  - intros j j' n E E'. destruct (Nat.eqb_spec j i), (Nat.eqb_spec j' i); subst; auto.
    + injection E as <-. elim (U _ E'). + injection E' as <-. elim (U _ E). + eapply B; eassumption.
  - exact C.
  - intros id E. destruct (D id E) as (X & Y & W). split; [right; exact X|]. split; [exact Y|]. intro n. rewrite P.
    destruct (Nat.eqb_spec n (lowest (k_tab k))); [|apply W]. intros [= <-]. auto.
  - intros id E. right. auto.
  - exact G.
  - intros n m id. rewrite !P. destruct (Nat.eqb_spec n (lowest (k_tab k))), (Nat.eqb_spec m (lowest (k_tab k))); subst; auto.
    + intros [= <-] E. elim (Fresh _ E). + intros E [= <-]. elim (Fresh _ E). + apply H.
  - intros n id. rewrite P. destruct (Nat.eqb_spec n (lowest (k_tab k))); [intros [= <-]; lia|]. intro E. apply I in E. lia.
  - intros id [<-|E]; [lia|]. apply J in E. lia.
  - intros id [<-|E].
    + right. right. exists i, (lowest (k_tab k)). rewrite Nat.eqb_refl, P, Nat.eqb_refl. auto.
    + destruct (K id E) as [X|[X|(j & n & X & Y)]]; auto. right. right. exists j, n.
      destruct (Nat.eqb_spec j i) as [->|]; [congruence|]. split; [exact X|]. rewrite P.
      destruct (Nat.eqb_spec n (lowest (k_tab k))) as [->|]; [congruence|exact Y].
Qed.
(** A file another thread opens. *)
Lemma inv_other k own : Inv k own -> Inv (other_opens k) own.
Proof.
  intros [A B C D F G H I J K]. destruct (lowest_free (k_tab k)) as [L1 L2].
  assert (P : forall n, nth n (put_fd (k_tab k) (lowest (k_tab k)) (Some (k_next k))) None =
              if n =? lowest (k_tab k) then Some (k_next k) else nth n (k_tab k) None) by (intro n; apply nth_put, L2).
  assert (U : forall j, own j <> Some (lowest (k_tab k))).
  { intros j E. destruct (A _ _ E) as (id & E1 & _). congruence. }
  assert (Fresh : forall n, nth n (k_tab k) None <> Some (k_next k)) by (intros n E; apply I in E; lia).
  assert (Fm : ~ In (k_next k) (k_mine k)) by (intro E; apply J in E; lia).
  constructor; unfold other_opens; cbn [k_tab k_next k_mine k_closed k_given]; try assumption.
  - intros j n E. rewrite P. destruct (Nat.eqb_spec n (lowest (k_tab k))) as [->|]; [elim (U _ E)|]. apply (A j n E).
  - intros id E. destruct (D id E) as (X & Y & W). split; [exact X|]. split; [exact Y|]. intro n. rewrite P.
    destruct (Nat.eqb_spec n (lowest (k_tab k))); [|apply W]. intros [= <-]. auto.
  - intros n m id. rewrite !P. destruct (Nat.eqb_spec n (lowest (k_tab k))), (Nat.eqb_spec m (lowest (k_tab k))); subst; auto.
    + intros [= <-] E. elim (Fresh _ E). + intros E [= <-]. elim (Fresh _ E). + apply H.
  - intros n id. rewrite P. destruct (Nat.eqb_spec n (lowest (k_tab k))); [intros [= <-]; lia|]. intro E. apply I in E. lia.
  - intros id E. apply J in E. lia.
  - intros id E. destruct (K id E) as [X|[X|(j & n & X & Y)]]; auto. right. right. exists j, n. split; [exact X|]. rewrite P.
    destruct (Nat.eqb_spec n (lowest (k_tab k))) as [->|]; [congruence|exact Y].
Qed.
(** The file of fstream [i] is closed and the fstream gives it up. *)
Lemma inv_closed k own i fd id : Inv k own -> own i = Some fd -> nth fd (k_tab k) None = Some id ->
  forall o c, Inv (mkk (put_fd (k_tab k) fd None) (k_next k) (k_mine k) (id :: k_closed k) (k_given k) o c) (setown own i None).
Proof.
  intros [A B C D F G H I J K] Ho Hn o c. pose proof (nth_some_lt _ _ _ Hn) as Lt.
  assert (P : forall n, nth n (put_fd (k_tab k) fd None) None = if n =? fd then None else nth n (k_tab k) None) by (intro n; apply nth_put; lia).
  destruct (A _ _ Ho) as (id' & E & M & Gv). assert (id' = id) by congruence. subst id'.
  constructor; cbn [k_tab k_next k_mine k_closed k_given]; unfold setown; try assumption.
  - intros j n Ej. destruct (Nat.eqb_spec j i) as [|N]; [discriminate|]. rewrite P.
    destruct (Nat.eqb_spec n fd) as [->|]; [elim N; eapply B; eassumption|]. apply (A j n Ej).
  - intros j j' n. destruct (Nat.eqb_spec j i), (Nat.eqb_spec j' i); try discriminate. apply B.
  - constructor; [|exact C]. intro X. destruct (D _ X) as (_ & _ & W). elim (W _ Hn).
  - intros x [<-|X].
    + split; [exact M|]. split; [exact Gv|]. intros n. rewrite P. destruct (Nat.eqb_spec n fd); [discriminate|]. intro Y. elim n0. exact (H _ _ _ Y Hn).
    + destruct (D x X) as (X1 & X2 & X3). split; [exact X1|]. split; [exact X2|]. intro n. rewrite P. destruct (n =? fd); [discriminate|apply X3].
  - intros n m x. rewrite !P. destruct (n =? fd), (m =? fd); try discriminate. apply H.
  - intros n x. rewrite P. destruct (n =? fd); [discriminate|apply I].
  - intros x X. destruct (Nat.eq_dec x id) as [->|Nx]; [right; left; left; reflexivity|].
    destruct (K x X) as [Y|[Y|(j & n & Y1 & Y2)]]; auto. { right. left. right. exact Y. }
    right. right. exists j, n. destruct (Nat.eqb_spec j i) as [->|].
    + assert (n = fd) by congruence. subst n. congruence.
    + split; [exact Y1|]. rewrite P. destruct (Nat.eqb_spec n fd) as [->|]; [congruence|exact Y2].
Qed.
(** fstream [i] gives its file to the caller. *)
Lemma inv_detach k own i fd id : Inv k own -> own i = Some fd -> nth fd (k_tab k) None = Some id ->
  Inv (mkk (k_tab k) (k_next k) (k_mine k) (k_closed k) (id :: k_given k) (k_opens k) (k_closes k)) (setown own i None).
Proof.
  intros [A B C D F G H I J K] Ho Hn. destruct (A _ _ Ho) as (id' & E & M & Gv). assert (id' = id) by congruence. subst id'.
  constructor; cbn [k_tab k_next k_mine k_closed k_given]; unfold setown; try assumption.
  - intros j n Ej. destruct (Nat.eqb_spec j i) as [|N]; [discriminate|]. destruct (A j n Ej) as (x & X1 & X2 & X3).
    exists x. split; [exact X1|]. split; [exact X2|]. intros [<-|Y]; [|auto]. apply N.
    assert (n = fd) by (exact (H _ _ _ X1 Hn)). subst n. eapply B; eassumption.
  - intros j j' n. destruct (Nat.eqb_spec j i), (Nat.eqb_spec j' i); try discriminate. apply B.
  - intros x X. destruct (D x X) as (X1 & X2 & X3). split; [exact X1|]. split; [|exact X3]. intros [<-|Y]; [elim (X3 _ Hn)|auto].
  - intros x [<-|X]; auto.
  - constructor; assumption.
  - intros x X. destruct (Nat.eq_dec x id) as [->|Nx]; [left; left; reflexivity|].
    destruct (K x X) as [Y|[Y|(j & n & Y1 & Y2)]]; auto. { left. right. exact Y. }
    right. right. exists j, n. destruct (Nat.eqb_spec j i) as [->|]; [|auto].
    assert (n = fd) by congruence. subst n. congruence.
Qed.

(** ** close *)
Section K.
  Variable keeps : bool.
  Definition calm (k : kern) (f : fstr) : Prop :=
    quiet keeps (k_closes k) /\ (~ In CErr (k_closes k) \/ Z.land (fs_exc f) 5 = 0%Z).
  Definition later (k k' : kern) : Prop := exists u, k_closes k = u ++ k_closes k'.
  Lemma later_refl k : later k k. Proof. exists []. reflexivity. Qed.
  Lemma later_trans a b c : later a b -> later b c -> later a c.
  Proof. intros [u E] [v F]. exists (u ++ v). rewrite E, F. now rewrite app_assoc. Qed.
  Lemma quiet_later k k' : later k k' -> quiet keeps (k_closes k) -> quiet keeps (k_closes k').
  Proof. intros [u E] [H|H]; [left; exact H|right]. intros o X. apply (H o). rewrite E. apply in_or_app. auto. Qed.
  Lemma cerr_later k k' : later k k' -> ~ In CErr (k_closes k) -> ~ In CErr (k_closes k').
  Proof. intros [u E] H X. apply H. rewrite E. apply in_or_app. auto. Qed.
  Lemma throws_zero f : Z.land (fs_exc f) 5 = 0%Z -> fs_throws (Z.lor badbit failbit) f = false.
  Proof. intro H. unfold fs_throws. change (Z.lor badbit failbit) with 5%Z. rewrite H. reflexivity. Qed.

  Lemma close_loop_ok fuel : forall k f i fd own k' f' b, Inv k own -> own i = Some fd -> calm k f ->
    close_loop keeps fuel k f fd = Ok (k', f', b) ->
    b = false /\ fs_fd f' = None /\ fs_exc f' = fs_exc f /\ Inv k' (setown own i None) /\ later k k'.
  Proof.
    induction fuel as [|fuel IH]; intros k f i fd own k' f' b V Ho [Q T] E; [discriminate|].
    cbn [close_loop] in E. unfold sys_close in E. destruct (k_closes k) as [|a t] eqn:Ec; [discriminate|].
    destruct (v_fd _ _ V _ _ Ho) as (id & Hn & _). rewrite Hn in E.
    assert (L : forall o c, later k (mkk o c (k_mine k) (k_closed k) (k_given k) (k_opens k) t)) by (intros; exists [a]; exact Ec).
    destruct a as [|other|].
    - rewrite bind_Ok in E. injection E as <- <- <-. split; [reflexivity|]. split; [reflexivity|]. split; [reflexivity|].
      split; [apply inv_closed; assumption|]. exists [COk]. exact Ec.
    - destruct Q as [->|Q]; [|elim (Q other); left; reflexivity]. rewrite bind_Ok in E. cbn [calm] in E.
      assert (V' : Inv (mkk (k_tab k) (k_next k) (k_mine k) (k_closed k) (k_given k) (k_opens k) t) own).
      { apply (inv_sched k); [repeat split|exact V]. }
      destruct other.
      + eapply IH in E; [|apply inv_other; exact V'|exact Ho|].
        * destruct E as (E1 & E2 & E3 & E4 & E5). split; [exact E1|]. split; [exact E2|]. split; [exact E3|]. split; [exact E4|].
          eapply later_trans; [|exact E5]. exists [CIntr true]. exact Ec.
        * split; [left; assumption|]. destruct T as [T|T]; [left; intro X; apply T; right; exact X|right; exact T].
      + eapply IH in E; [|exact V'|exact Ho|].
        * destruct E as (E1 & E2 & E3 & E4 & E5). split; [exact E1|]. split; [exact E2|]. split; [exact E3|]. split; [exact E4|].
          eapply later_trans; [|exact E5]. exists [CIntr false]. exact Ec.
        * split; [left; assumption|]. destruct T as [T|T]; [left; intro X; apply T; right; exact X|right; exact T].
    - rewrite bind_Ok in E. cbv zeta in E. destruct T as [T|T]; [elim T; left; reflexivity|].
      rewrite throws_zero in E by exact T. injection E as <- <- <-. split; [reflexivity|]. split; [reflexivity|]. split; [reflexivity|].
      split; [apply inv_closed; assumption|]. exists [CErr]. exact Ec.
  Qed.
  Lemma fs_close_ok k f i own k' f' b : Inv k own -> own i = fs_fd f -> calm k f -> fs_close keeps k f = Ok (k', f', b) ->
    b = false /\ fs_fd f' = None /\ fs_exc f' = fs_exc f /\ Inv k' (setown own i None) /\ later k k'.
  Proof.
    intros V Ho C E. unfold fs_close in E. destruct (fs_fd f) as [fd|] eqn:Ef.
    - eapply close_loop_ok; eassumption.
    - injection E as <- <- <-. split; [reflexivity|]. split; [exact Ef|]. split; [reflexivity|].
      split; [|apply later_refl]. eapply inv_ext; [|exact V]. intro j. unfold setown. destruct (Nat.eqb_spec j i) as [->|]; auto.
  Qed.
End K.

(** A descriptor changes hands. *)
Lemma inv_move k own i j : Inv k own -> own i = None -> i <> j -> Inv k (setown (setown own j None) i (own j)).
Proof.
  intros [A B C D F G H I J K] N Nij. constructor; try assumption; unfold setown.
  - intros x n. destruct (Nat.eqb_spec x i); [apply A|]. destruct (Nat.eqb_spec x j); [discriminate|apply A].
  - intros x y n. destruct (Nat.eqb_spec x i), (Nat.eqb_spec y i), (Nat.eqb_spec x j), (Nat.eqb_spec y j); subst; try discriminate; auto; intros E E';
      try (pose proof (B _ _ _ E E'); congruence).
  - intros id E. destruct (K id E) as [X|[X|(x & n & X & Y)]]; auto. right. right.
    destruct (Nat.eq_dec x j) as [->|Nx].
    + exists i, n. rewrite Nat.eqb_refl. auto.
    + exists x, n. destruct (Nat.eqb_spec x i) as [->|]; [congruence|]. destruct (Nat.eqb_spec x j); [contradiction|auto].
Qed.

Section Step.
  Variable keeps : bool.
  Variable ops : list fdop.
  (** [P k fs]: the state between operations. *)
  Definition tolerant (k : kern) (fs : list fstr) : Prop :=
    quiet keeps (k_closes k) /\ (~ In CErr (k_closes k) \/ Forall (fun f => Z.land (fs_exc f) 5 = 0%Z) fs).
  Lemma tolerant_calm k fs i f : tolerant k fs -> nth_error fs i = Some f -> calm keeps k f.
  Proof.
    intros [Q [T|T]] E; (split; [exact Q|]); [left; exact T|right]. rewrite Forall_forall in T. apply T. eapply nth_error_In; eassumption.
  Qed.
  Lemma rd_nth (fs : list fstr) i f : rd fs i = Ok f -> nth_error fs i = Some f.
  Proof. unfold rd. destruct (nth_error fs i); congruence. Qed.
  Lemma wr_nth (fs fs' : list fstr) i f : wr fs i f = Ok fs' ->
    length fs' = length fs /\ (i < length fs) /\ forall j, nth_error fs' j = if j =? i then Some f else nth_error fs j.
  Proof.
    unfold wr. destruct (upd fs i f) as [x|] eqn:E; [|discriminate]. intros [= <-]. revert i x E.
    induction fs as [|g t IH]; intros i x E; [discriminate|]. destruct i; cbn [upd] in E.
    - injection E as <-. cbn. split; [reflexivity|]. split; [lia|]. intros [|j]; reflexivity.
    - destruct (upd t i f) as [y|] eqn:Ey; [|discriminate]. injection E as <-. destruct (IH _ _ Ey) as (L & Lt & H).
      cbn [length]. split; [lia|]. split; [lia|]. intros [|j]; [reflexivity|]. cbn. apply H.
  Qed.
  Definition step_ok (f f' : fstr) (k k' : kern) (own : nat -> option nat) (i : nat) : Prop :=
    Inv k' (setown own i (fs_fd f')) /\ later k k'.
  Lemma step_on k fs i op k' fs' : Inv k (owner fs) -> tolerant k fs ->
    on_fs k fs i op = Ok (k', fs') ->
    (forall f k' f' b, nth_error fs i = Some f -> op k f = Ok (k', f', b) ->
       Inv k' (setown (owner fs) i (fs_fd f')) /\ later k k' /\ (Z.land (fs_exc f) 5 = 0 -> Z.land (fs_exc f') 5 = 0 \/ ~ In CErr (k_closes k))%Z) ->
    Inv k' (owner fs') /\ tolerant k' fs' /\ length fs' = length fs /\ later k k'.
  Proof.
    intros V T E H. unfold on_fs in E. destruct (rd fs i) as [f| | |] eqn:Er; try discriminate. rewrite bind_Ok in E.
    apply rd_nth in Er. destruct (op k f) as [[[k1 f1] b]| | |] eqn:Eo; try discriminate. rewrite bind_Ok in E.
    destruct (wr fs i f1) as [fs1| | |] eqn:Ew; try discriminate. rewrite bind_Ok in E. injection E as <- <-.
    destruct (wr_nth _ _ _ _ Ew) as (L & Lt & N). destruct (H _ _ _ _ Er Eo) as (H1 & H2 & H3).
    split. { eapply inv_ext; [|exact H1]. intro j. unfold setown, owner. rewrite N. destruct (j =? i); reflexivity. }
    split; [|split; assumption].
    destruct T as [Q T]. split; [eapply quiet_later; eassumption|].
    destruct T as [T|T]; [left; eapply cerr_later; eassumption|].
    assert (E1 : Z.land (fs_exc f) 5 = 0%Z) by (rewrite Forall_forall in T; apply T; eapply nth_error_In; eassumption).
    destruct (H3 E1) as [E2|E2]; [right|left; eapply cerr_later; eassumption].
    rewrite Forall_forall in *. intros g Hg. apply In_nth_error in Hg. destruct Hg as [j Hj]. rewrite N in Hj.
    destruct (j =? i); [injection Hj as <-; exact E2|]. apply T. eapply nth_error_In; eassumption.
  Qed.
  Lemma owner_nth fs i f : nth_error fs i = Some f -> owner fs i = fs_fd f.
  Proof. unfold owner. intros ->. reflexivity. Qed.
  Lemma owner_end fs : owner fs (length fs) = None.
  Proof. unfold owner. rewrite (proj2 (nth_error_None fs (length fs))) by lia. reflexivity. Qed.

  Lemma fs_open_ok k f i z name own k' f' b : Inv k own -> own i = fs_fd f -> calm keeps k f -> own z = None -> z <> i ->
    fs_open keeps k f name = Ok (k', f', b) ->
    Inv k' (setown own i (fs_fd f')) /\ later k k' /\ fs_exc f' = fs_exc f.
  Proof.
    intros V Ho C Hz Nz E. unfold fs_open, sys_open in E. destruct (k_opens k) as [|[|] t]; try discriminate.
    - rewrite bind_Ok in E. unfold fs_attach in E. cbv zeta in E.
      set (k1 := mkk _ _ _ _ _ _ _) in E.
      assert (V1 : Inv k1 (setown own z (Some (lowest (k_tab k))))) by (apply inv_open; assumption).
      destruct (fs_close keeps k1 _) as [[[k2 f2] b2]| | |] eqn:Ec; try discriminate. rewrite bind_Ok in E.
      eapply (fs_close_ok keeps k1 _ i) in Ec; [|exact V1|unfold setown; rewrite (proj2 (Nat.eqb_neq i z)) by auto; exact Ho|exact C].
      destruct Ec as (-> & F2 & X2 & V2 & L2). injection E as <- <- <-. cbn [fs_fd fs_exc].
      split; [|split; [exact L2|exact X2]].
      apply (inv_move _ _ i z) in V2; [|unfold setown; rewrite Nat.eqb_refl; reflexivity|auto].
      eapply inv_ext; [|exact V2]. intro j. unfold setown. rewrite Nat.eqb_refl, (proj2 (Nat.eqb_neq z i)) by auto.
      destruct (Nat.eqb_spec j i); [reflexivity|]. destruct (Nat.eqb_spec j z) as [->|]; [symmetry; exact Hz|reflexivity].
    - rewrite bind_Ok in E. set (k1 := mkk _ _ _ _ _ _ _) in E.
      assert (V1 : Inv k1 own) by (apply (inv_sched k); [repeat split|exact V]).
      unfold fs_attach in E. cbv zeta in E. destruct (fs_throws badbit _).
      + injection E as <- <- <-. cbn [fs_fd fs_exc fs_set]. split; [|split; [exists []; reflexivity|reflexivity]].
        eapply inv_ext; [|exact V1]. intro j. unfold setown. destruct (Nat.eqb_spec j i) as [->|]; auto.
      + destruct (fs_close keeps k1 _) as [[[k2 f2] b2]| | |] eqn:Ec; try discriminate. rewrite bind_Ok in E.
        eapply (fs_close_ok keeps k1 _ i) in Ec; [|exact V1|exact Ho|exact C].
        destruct Ec as (-> & F2 & X2 & V2 & L2). injection E as <- <- <-. cbn [fs_fd fs_exc].
        split; [exact V2|]. split; [exact L2|exact X2].
  Qed.

  Lemma fd_step_ok k fs o k' fs' : Inv k (owner fs) -> tolerant k fs -> (~ In CErr (k_closes k) \/ ~ throws_on_close o) ->
    fd_step keeps (k, fs) o = Ok (k', fs') -> Inv k' (owner fs') /\ tolerant k' fs' /\ length fs' = length fs /\ later k k'.
  Proof.
    intros V T R E. destruct o as [i name|i|i|i v|i|i|]; cbn [fd_step] in E.
    - eapply step_on in E; [exact E|exact V|exact T|]. intros f k1 f1 b Hf Ho.
      assert (Li : i < length fs) by (apply nth_error_Some; congruence).
      eapply (fs_open_ok k f i (length fs)) in Ho; [|exact V|now apply owner_nth|eapply tolerant_calm; eassumption|apply owner_end|lia].
      destruct Ho as (X & Y & W). rewrite W. auto.
    - eapply step_on in E; [exact E|exact V|exact T|]. intros f k1 f1 b Hf Ho.
      eapply (fs_close_ok keeps k f i) in Ho; [|exact V|now apply owner_nth|eapply tolerant_calm; eassumption].
      destruct Ho as (_ & X & Y & W & L). rewrite X, Y. auto.
    - eapply step_on in E; [exact E|exact V|exact T|]. intros f k1 f1 b Hf Ho. injection Ho as <- <- <-.
      split; [|split; [exists []; reflexivity|cbn; auto]]. cbn [fs_fd fs_detach].
      pose proof (owner_nth _ _ _ Hf) as Hw. destruct (fs_fd f) as [fd|] eqn:Ef.
      + destruct (v_fd _ _ V _ _ Hw) as (id & Hn & _). rewrite Hn. cbn [app]. now apply (inv_detach k (owner fs) i fd id).
      + cbn [app]. eapply inv_ext; [|eapply inv_sched; [|exact V]; repeat split]. intro j. unfold setown.
        destruct (Nat.eqb_spec j i) as [->|]; auto.
    - eapply step_on in E; [exact E|exact V|exact T|]. intros f k1 f1 b Hf Ho. injection Ho as <- <- <-. cbn [fs_fd fs_exc].
      split; [|split; [exists []; reflexivity|]].
      + eapply inv_ext; [|exact V]. intro j. unfold setown. destruct (Nat.eqb_spec j i) as [->|]; [now apply owner_nth|reflexivity].
      + intros _. destruct R as [R|R]; [right; exact R|left]. cbn [throws_on_close] in R. destruct (Z.eq_dec (Z.land v 5) 0); [assumption|contradiction].
    - eapply step_on in E; [exact E|exact V|exact T|]. intros f k1 f1 b Hf Ho. injection Ho as <- <- <-. cbn [fs_fd fs_exc].
      split; [|split; [exists []; reflexivity|auto]].
      eapply inv_ext; [|exact V]. intro j. unfold setown. destruct (Nat.eqb_spec j i) as [->|]; [now apply owner_nth|reflexivity].
    - eapply step_on in E; [exact E|exact V|exact T|]. intros f k1 f1 b Hf Ho. unfold fs_destroy in Ho.
      destruct (fs_close keeps k _) as [[[k2 f2] b2]| | |] eqn:Ec; try discriminate. rewrite bind_Ok in Ho. cbn [andb] in Ho.
      injection Ho as <- <- <-.
      eapply (fs_close_ok keeps k _ i) in Ec; [|exact V|cbn [fs_fd]; now apply owner_nth|].
      + destruct Ec as (_ & _ & _ & W & L). cbn [fs_fd fs_new fs_exc]. auto.
      + split; [apply T|right; reflexivity].
    - injection E as <- <-. split; [apply inv_other; exact V|]. split; [exact T|]. split; [reflexivity|]. exists []. reflexivity.
  Qed.
  Lemma fd_run_ok l : forall k fs k' fs', Inv k (owner fs) -> tolerant k fs -> forgiving (k_closes k) l ->
    fd_run keeps (k, fs) l = Ok (k', fs') -> Inv k' (owner fs') /\ tolerant k' fs' /\ length fs' = length fs.
  Proof.
    induction l as [|o t IH]; intros k fs k' fs' V T R E; cbn [fd_run] in E.
    - injection E as <- <-. auto.
    - destruct (fd_step keeps (k, fs) o) as [[k1 fs1]| | |] eqn:Es; try discriminate. rewrite bind_Ok in E.
      apply fd_step_ok in Es; [|exact V|exact T|destruct R as [R|R]; [left; exact R|right; inversion R; assumption]].
      destruct Es as (V1 & T1 & L1 & La). apply IH in E; [|exact V1|exact T1|].
      + destruct E as (A & B & C). rewrite <- L1. auto.
      + destruct R as [R|R]; [left; eapply cerr_later; eassumption|right; inversion R; assumption].
  Qed.
  Lemma fd_run_app l1 : forall l2 s s', fd_run keeps s (l1 ++ l2) = Ok s' -> exists s1, fd_run keeps s l1 = Ok s1 /\ fd_run keeps s1 l2 = Ok s'.
  Proof.
    induction l1 as [|o t IH]; intros l2 s s' E; cbn [fd_run app] in *; [eauto|].
    destruct (fd_step keeps s o) as [s1| | |]; try discriminate. rewrite bind_Ok in E. destruct (IH _ _ _ E) as (s2 & A & B).
    exists s2. rewrite bind_Ok. auto.
  Qed.
End Step.

(** A step concerns one fstream. *)
Lemma destroy_closes keeps k fs i k' fs' : fd_step keeps (k, fs) (FdDestroy i) = Ok (k', fs') ->
  length fs' = length fs /\ forall j, owner fs' j = if j =? i then None else owner fs j.
Proof.
  cbn [fd_step]. unfold on_fs. destruct (rd fs i) as [f| | |]; try discriminate. rewrite bind_Ok. unfold fs_destroy.
  destruct (fs_close keeps k _) as [[[k2 f2] b2]| | |]; try discriminate. rewrite !bind_Ok. cbn [andb]. rewrite bind_Ok.
  destruct (wr fs i fs_new) as [fs1| | |] eqn:Ew; try discriminate. rewrite bind_Ok. intros [= <- <-].
  destruct (wr_nth _ _ _ _ Ew) as (L & Lt & N). split; [exact L|]. intro j. unfold owner. rewrite N. destruct (j =? i); reflexivity.
Qed.
Lemma destroy_all_closes keeps n : forall a k fs k' fs', fd_run keeps (k, fs) (map FdDestroy (seq a n)) = Ok (k', fs') ->
  forall j, owner fs' j = if (a <=? j) && (j <? a + n) then None else owner fs j.
Proof.
  induction n as [|n IH]; intros a k fs k' fs' E j; cbn [seq map fd_run] in E.
  - injection E as <- <-. destruct (Nat.leb_spec a j), (Nat.ltb_spec j (a + 0)); cbn [andb]; try reflexivity; lia.
  - destruct (fd_step keeps (k, fs) (FdDestroy a)) as [[k1 fs1]| | |] eqn:Es; try discriminate. rewrite bind_Ok in E.
    apply destroy_closes in Es. destruct Es as [_ Es]. rewrite (IH _ _ _ _ _ E j), Es.
    destruct (Nat.leb_spec (S a) j), (Nat.ltb_spec j (S a + n)), (Nat.leb_spec a j), (Nat.ltb_spec j (a + S n)), (Nat.eqb_spec j a);
      cbn [andb]; try reflexivity; lia.
Qed.
Lemma destroyed keeps k fs k' fs' : fd_run keeps (k, fs) (destroy_all (length fs)) = Ok (k', fs') -> forall j, owner fs' j = None.
Proof.
  intros E j. rewrite (destroy_all_closes _ _ _ _ _ _ _ E j). destruct (Nat.leb_spec 0 j), (Nat.ltb_spec j (0 + length fs)); cbn [andb]; try reflexivity; try lia.
  unfold owner. rewrite (proj2 (nth_error_None fs j)) by lia. reflexivity.
Qed.
Lemma inv_start tab next opens closes n :
  (forall i j id, nth i tab None = Some id -> nth j tab None = Some id -> i = j) ->
  (forall i id, nth i tab None = Some id -> id < next) ->
  Inv (kern0 tab next opens closes) (owner (repeat fs_new n)).
Proof.
  intros H1 H2. assert (O : forall i, owner (repeat fs_new n) i = None).
  { intro i. unfold owner. destruct (nth_error (repeat fs_new n) i) eqn:E; [|reflexivity]. apply nth_error_In, repeat_spec in E. now subst. }
  constructor; cbn; try assumption; try constructor.
  all: intros; repeat match goal with H : _ \/ _ |- _ => destruct H end; try contradiction; try (match goal with E : owner _ _ = _ |- _ => rewrite O in E; discriminate end).
Qed.
Lemma inv_accounted k own : Inv k own -> (forall j, own j = None) -> accounted k.
Proof.
  intros [A B C D F G H I J K] N. split.
  - clear - C D G. induction (k_closed k) as [|x t IH]; cbn [app]; [exact G|]. inversion C as [|? ? X Y]; subst.
    constructor; [|apply IH; [exact Y|intros id Hi; apply D; right; exact Hi]].
    rewrite in_app_iff. intros [Z|Z]; [auto|]. destruct (D x (or_introl eq_refl)) as (_ & W & _). auto.
  - intro id. rewrite in_app_iff. split.
    + intro M. destruct (K id M) as [X|[X|(i & n & X & _)]]; auto. rewrite N in X. discriminate.
    + intros [X|X]; [apply D, X|auto].
Qed.

(** ** No step gets stuck *)
Lemma close_loop_total keeps fuel : forall k f fd, length (k_closes k) < fuel ->
  close_loop keeps fuel k f fd = NoFuel \/ exists r, close_loop keeps fuel k f fd = Ok r.
Proof.
  induction fuel as [|fuel IH]; intros k f fd H; [lia|]. cbn [close_loop]. unfold sys_close.
  destruct (k_closes k) as [|a t] eqn:Ec; [left; reflexivity|]. cbn [length] in H.
  destruct (nth fd (k_tab k) None) as [id|].
  - destruct a as [|o|]; rewrite bind_Ok.
    + right. eexists. reflexivity.
    + apply IH. destruct o, keeps; cbn [k_closes other_opens]; lia.
    + cbv zeta. destruct (fs_throws _ f); right; eexists; reflexivity.
  - rewrite bind_Ok. cbv zeta. destruct (fs_throws _ f); right; eexists; reflexivity.
Qed.
Lemma fs_close_total keeps k f : fs_close keeps k f = NoFuel \/ exists r, fs_close keeps k f = Ok r.
Proof. unfold fs_close. destruct (fs_fd f); [apply close_loop_total; lia|right; eauto]. Qed.
Lemma fs_open_total keeps k f n : fs_open keeps k f n = NoFuel \/ exists r, fs_open keeps k f n = Ok r.
Proof.
  unfold fs_open, sys_open. destruct (k_opens k) as [|[|] t]; [left; reflexivity| |]; rewrite bind_Ok; unfold fs_attach; cbv zeta.
  - match goal with |- context [fs_close keeps ?a ?b] => destruct (fs_close_total keeps a b) as [E|[[[? ?] []] E]]; rewrite E end;
      [left; reflexivity|right; rewrite bind_Ok; eauto|right; rewrite bind_Ok; eauto].
  - destruct (fs_throws badbit _); [right; eauto|].
    match goal with |- context [fs_close keeps ?a ?b] => destruct (fs_close_total keeps a b) as [E|[[[? ?] []] E]]; rewrite E end;
      [left; reflexivity|right; rewrite bind_Ok; eauto|right; rewrite bind_Ok; eauto].
Qed.
Lemma on_fs_total k fs i op : i < length fs -> (forall f, op k f = NoFuel \/ exists r, op k f = Ok r) ->
  on_fs k fs i op = NoFuel \/ exists k' fs', on_fs k fs i op = Ok (k', fs') /\ length fs' = length fs.
Proof.
  intros Hi H. unfold on_fs. unfold rd. destruct (nth_error fs i) as [f|] eqn:E; [|apply nth_error_None in E; lia]. rewrite bind_Ok.
  destruct (H f) as [X|[[[k1 f1] b] X]]; rewrite X; [left; reflexivity|right]. rewrite bind_Ok.
  destruct (wr fs i f1) as [fs1| | |] eqn:Ew.
  - rewrite bind_Ok. exists k1, fs1. split; [reflexivity|]. apply (wr_nth fs fs1 i f1 Ew).
  - exfalso. unfold wr in Ew. destruct (upd fs i f1) eqn:Eu; [discriminate|]. clear - Eu Hi. revert i Hi Eu.
    induction fs as [|x t IH]; intros i Hi Eu; cbn [length] in Hi; [lia|]. destruct i; [discriminate|]. cbn [upd] in Eu.
    destruct (upd t i f1) eqn:E; [discriminate|]. apply (IH i); [lia|assumption].
  - unfold wr in Ew. destruct (upd fs i f1); discriminate.
  - unfold wr in Ew. destruct (upd fs i f1); discriminate.
Qed.
Lemma fd_step_total keeps k fs o : among (length fs) o ->
  fd_step keeps (k, fs) o = NoFuel \/ exists k' fs', fd_step keeps (k, fs) o = Ok (k', fs') /\ length fs' = length fs.
Proof.
  destruct o as [i name|i|i|i v|i|i|]; cbn [among fd_step]; intro H; try (apply on_fs_total; [exact H|]; intro f; try (right; eauto; fail)).
  - apply fs_open_total.
  - apply fs_close_total.
  - unfold fs_destroy. match goal with |- context [fs_close keeps ?a ?b] => destruct (fs_close_total keeps a b) as [E|[[[? ?] ?] E]]; rewrite E end;
      [left; reflexivity|right; rewrite bind_Ok; cbn [andb]; eauto].
  - right. eauto.
Qed.
Lemma fd_run_total keeps l : forall k fs, Forall (among (length fs)) l ->
  fd_run keeps (k, fs) l = NoFuel \/ exists k' fs', fd_run keeps (k, fs) l = Ok (k', fs') /\ length fs' = length fs.
Proof.
  induction l as [|o t IH]; intros k fs H; cbn [fd_run]; [right; eauto|]. inversion H as [|? ? H1 H2]; subst.
  destruct (fd_step_total keeps k fs o H1) as [E|(k1 & fs1 & E & L)]; rewrite E; [left; reflexivity|]. rewrite bind_Ok.
  destruct (IH k1 fs1) as [F|(k2 & fs2 & F & L2)]; [rewrite L; exact H2|left; exact F|right]. rewrite <- L. eauto.
Qed.

Lemma inv_own k fs : Inv k (owner fs) -> holds_its_own k fs.
Proof.
  intro V. split.
  - intros i f fd E F. destruct (v_fd _ _ V i fd) as (id & A & B & C); [unfold owner; rewrite E; exact F|].
    exists id. repeat split; auto. intro D. apply (v_closed _ _ V) in D. now apply (proj2 (proj2 D) fd).
  - intros i j f g fd E F G H. apply (v_inj _ _ V i j fd); unfold owner; [rewrite E|rewrite F]; assumption.
Qed.

(** ** What becomes of an open file *)
Definition persists (k k' : kern) : Prop :=
  (forall n id, nth n (k_tab k) None = Some id -> nth n (k_tab k') None = Some id \/ In id (k_closed k')) /\
  (forall id, In id (k_closed k) -> In id (k_closed k')).
Lemma persists_refl k : persists k k.
Proof. split; auto. Qed.
Lemma persists_trans a b c : persists a b -> persists b c -> persists a c.
Proof. intros [A B] [C D]. split; [|auto]. intros n id H. destruct (A _ _ H) as [X|X]; [auto|right; auto]. Qed.
Lemma persists_files a b : k_tab a = k_tab b -> k_closed a = k_closed b -> persists a b.
Proof. intros A B. split; rewrite <- A || rewrite <- B; rewrite <- ?B; auto. Qed.
Lemma persists_put k t nx mi cl gi op ce x : t = put_fd (k_tab k) (lowest (k_tab k)) x -> cl = k_closed k -> persists k (mkk t nx mi cl gi op ce).
Proof.
  intros -> ->. split; [|auto]. intros n id H. left. cbn [k_tab]. destruct (lowest_free (k_tab k)) as [L1 L2].
  rewrite nth_put by exact L2. destruct (Nat.eqb_spec n (lowest (k_tab k))) as [->|]; [congruence|exact H].
Qed.
Lemma persists_close keeps k fd k' r : sys_close keeps k fd = Ok (k', r) -> persists k k'.
Proof.
  unfold sys_close. destruct (k_closes k) as [|a t]; [discriminate|]. destruct (nth fd (k_tab k) None) as [id|] eqn:E.
  - pose proof (nth_some_lt _ _ _ E) as Lt.
    assert (R : forall o c, persists k (mkk (put_fd (k_tab k) fd None) (k_next k) (k_mine k) (id :: k_closed k) (k_given k) o c)).
    { intros o c. split; cbn [k_tab k_closed]; [|intros; now right]. intros n j H. rewrite nth_put by lia.
      destruct (Nat.eqb_spec n fd) as [->|]; [right; left; congruence|left; exact H]. }
    destruct a as [|o|]; intro H.
    + injection H as <- <-. apply R.
    + injection H as <- <-. eapply (persists_trans _ (if keeps then _ else _)).
      2:{ destruct o; [eapply persists_put; reflexivity|apply persists_refl]. }
      destruct keeps; [apply persists_files; reflexivity|apply R].
    + injection H as <- <-. apply R.
  - intro H. injection H as <- <-. apply persists_files; reflexivity.
Qed.
Lemma persists_loop keeps fuel : forall k f fd k' f' b, close_loop keeps fuel k f fd = Ok (k', f', b) -> persists k k'.
Proof.
  induction fuel as [|fuel IH]; intros k f fd k' f' b E; [discriminate|]. cbn [close_loop] in E.
  destruct (sys_close keeps k fd) as [[k1 r]| | |] eqn:Es; try discriminate. rewrite bind_Ok in E. apply persists_close in Es.
  destruct r as [[|]|].
  - eapply persists_trans; [exact Es|]. eapply IH; exact E.
  - cbv zeta in E. destruct (fs_throws _ f); injection E as <- <- <-; exact Es.
  - injection E as <- <- <-. exact Es.
Qed.
Lemma persists_fsclose keeps k f k' f' b : fs_close keeps k f = Ok (k', f', b) -> persists k k'.
Proof.
  unfold fs_close. destruct (fs_fd f); [apply persists_loop|]. intro H. injection H as <- <- <-. apply persists_refl.
Qed.
Lemma persists_open keeps k f n k' f' b : fs_open keeps k f n = Ok (k', f', b) -> persists k k'.
Proof.
  unfold fs_open, sys_open. destruct (k_opens k) as [|[|] t]; try discriminate; rewrite bind_Ok; unfold fs_attach; cbv zeta.
  - match goal with |- context [fs_close keeps ?a ?b] => destruct (fs_close keeps a b) as [[[k1 f1] b1]| | |] eqn:E; try discriminate end.
    rewrite bind_Ok. apply persists_fsclose in E. intro H. eapply (persists_trans _ k1); [eapply persists_trans; [|exact E]; eapply persists_put; reflexivity|].
    destruct b1; injection H as <- <- <-; apply persists_refl.
  - destruct (fs_throws badbit _); [intro H; injection H as <- <- <-; apply persists_files; reflexivity|].
    match goal with |- context [fs_close keeps ?a ?b] => destruct (fs_close keeps a b) as [[[k1 f1] b1]| | |] eqn:E; try discriminate end.
    rewrite bind_Ok. apply persists_fsclose in E. intro H. eapply (persists_trans _ k1); [eapply persists_trans; [|exact E]; apply persists_files; reflexivity|].
    destruct b1; injection H as <- <- <-; apply persists_refl.
Qed.
Lemma persists_on k fs i op k' fs' : on_fs k fs i op = Ok (k', fs') -> (forall f k' f' b, op k f = Ok (k', f', b) -> persists k k') -> persists k k'.
Proof.
  unfold on_fs. intros E H. destruct (rd fs i) as [f| | |]; try discriminate. rewrite bind_Ok in E.
  destruct (op k f) as [[[k1 f1] b]| | |] eqn:Eo; try discriminate. rewrite bind_Ok in E.
  destruct (wr fs i f1); try discriminate. rewrite bind_Ok in E. injection E as <- <-. eapply H; exact Eo.
Qed.
Lemma persists_step keeps k fs o k' fs' : fd_step keeps (k, fs) o = Ok (k', fs') -> persists k k'.
Proof.
  destruct o as [i name|i|i|i v|i|i|]; cbn [fd_step]; intro E.
  - eapply persists_on; [exact E|]. intros f k1 f1 b. apply persists_open.
  - eapply persists_on; [exact E|]. intros f k1 f1 b. apply persists_fsclose.
  - eapply persists_on; [exact E|]. intros f k1 f1 b H. injection H as <- <- <-. apply persists_files; reflexivity.
  - eapply persists_on; [exact E|]. intros f k1 f1 b H. injection H as <- <- <-. apply persists_refl.
  - eapply persists_on; [exact E|]. intros f k1 f1 b H. injection H as <- <- <-. apply persists_refl.
  - eapply persists_on; [exact E|]. intros f k1 f1 b. unfold fs_destroy.
    match goal with |- context [fs_close keeps ?a ?b] => destruct (fs_close keeps a b) as [[[k2 f2] b2]| | |] eqn:Ec; try discriminate end.
    rewrite bind_Ok. cbn [andb]. intro H. injection H as <- <- <-. eapply persists_fsclose; exact Ec.
  - injection E as <- <-. eapply persists_put; reflexivity.
Qed.
Lemma persists_run keeps l : forall k fs k' fs', fd_run keeps (k, fs) l = Ok (k', fs') -> persists k k'.
Proof.
  induction l as [|o t IH]; intros k fs k' fs' E; cbn [fd_run] in E; [injection E as <- <-; apply persists_refl|].
  destruct (fd_step keeps (k, fs) o) as [[k1 fs1]| | |] eqn:Es; try discriminate. rewrite bind_Ok in E.
  eapply persists_trans; [eapply persists_step; exact Es|eapply IH; exact E].
Qed.
Lemma inv_others k k' own : persists k k' -> Inv k' own -> others_kept k k'.
Proof. intros [A B] V n id H N. destruct (A _ _ H) as [X|X]; [exact X|]. exfalso. apply N, (v_closed _ _ V), X. Qed.

(** ** Closing leaves the bad bit and the opened files *)
Lemma close_loop_keeps keeps fuel : forall k f fd k' f' b, close_loop keeps fuel k f fd = Ok (k', f', b) ->
  (Z.testbit (fs_state f) 0 = true -> Z.testbit (fs_state f') 0 = true) /\ k_mine k' = k_mine k.
Proof.
  induction fuel as [|fuel IH]; intros k f fd k' f' b E; [discriminate|]. cbn [close_loop] in E.
  destruct (sys_close keeps k fd) as [[k1 r]| | |] eqn:Es; try discriminate. rewrite bind_Ok in E.
  assert (M : k_mine k1 = k_mine k).
  { unfold sys_close in Es. destruct (k_closes k) as [|a t]; [discriminate|]. destruct (nth fd (k_tab k) None).
    - destruct a as [|o|]; injection Es as <- <-; try reflexivity. destruct o, keeps; reflexivity.
    - injection Es as <- <-. reflexivity. }
  rewrite <- M. destruct r as [[|]|].
  - now apply IH in E.
  - cbv zeta in E. destruct (fs_throws _ f); injection E as <- <- <-; cbn [fs_state fs_set fs_detach]; split; auto; rewrite Z.lor_spec; intros ->; reflexivity.
  - injection E as <- <- <-. auto.
Qed.
Lemma fs_close_keeps keeps k f k' f' b : fs_close keeps k f = Ok (k', f', b) ->
  (Z.testbit (fs_state f) 0 = true -> Z.testbit (fs_state f') 0 = true) /\ k_mine k' = k_mine k.
Proof. unfold fs_close. destruct (fs_fd f); [apply close_loop_keeps|]. intro H. injection H as <- <- <-. auto. Qed.
