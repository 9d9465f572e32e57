(** * Properties C32, C33, C63, C64: bitsets. *)
From Verif Require Import Base UtilModel BitsetModel BitsetSpec BitsetProofs.
From Coq Require Import ZArith ZifyBool ZifyNat.
Local Open Scope nat_scope.

(** C32: any history over any number of bitsets of one size, from the default
    constructor: nothing undefined; test (n) gives bit n of the specified bits
    for every n, to_string gives them as text, and reading that text back into
    any bitset gives them again. *)
Theorem C32_bits (sz k : nat) (ops : list bop) : 0 < sz -> Forall (bop_pre sz k) ops ->
  exists s, brun sz (repeat (bs_of_value sz 0) k) ops = Ok s /\ length s = k /\
    forall i, i < k -> exists b, nth_error s i = Some b /\
      (let l := nth i (bspec_run sz (repeat (repeat false sz) k) ops) [] in
       (forall n, n < sz -> bs_test sz b n = Ok (nth n l false)) /\
       bs_to_string sz b = Ok (text_of_bits l) /\
       (forall j old, nth_error s j = Some old -> exists c, bs_of_string old (text_of_bits l) = Ok c /\
          forall n, n < sz -> bs_test sz c n = Ok (nth n l false))).
Proof.
  intros Hz P. destruct (brun_ok sz false ops (repeat (bs_of_value sz 0) k) (repeat (repeat false sz) k) Hz (Sinv_init sz false k Hz)) as (s & E & S & L).
  - now rewrite repeat_length.
  - discriminate.
  - rewrite repeat_length in L. exists s. split; [exact E|]. split; [exact L|]. intros i Hi.
    destruct (Sinv_get sz false s _ i S ltac:(lia)) as (b & Eb & I). exists b. split; [now apply rd_nth_error|]. cbv zeta.
    fold (bget (bspec_run sz (repeat (repeat false sz) k) ops) i). set (l := bget _ i) in *. split; [intros n Hn; eapply bs_test_ok; eauto|].
    split; [eapply bs_to_string_ok; eauto|]. intros j old Ej.
    assert (Hj : j < length s) by (apply nth_error_Some; congruence).
    destruct (Sinv_get sz false s _ j S Hj) as (old' & Eo & Io). apply rd_nth_error in Eo. assert (old' = old) as -> by congruence.
    destruct Io as (Lo & Fo & _). destruct (bs_of_string_ok sz false old (text_of_bits l) Lo Fo ltac:(discriminate)) as (c & Ec & Ic).
    exists c. split; [exact Ec|]. rewrite text_bits in Ic by (eapply Binv_length; eauto). intros n Hn. eapply bs_test_ok; eauto.
Qed.
Print Assumptions C32_bits.
(** to_value gives the first bits of the bitset as a number: bit n of it is bit
    n of the bitset, after any history. *)
Theorem C32_to_value (sz k : nat) (ops : list bop) : 0 < sz -> Forall (bop_pre sz k) ops ->
  exists s, brun sz (repeat (bs_of_value sz 0) k) ops = Ok s /\ length s = k /\
    forall i, i < k -> exists b v, nth_error s i = Some b /\ bs_to_value b = Ok v /\ (0 <= v < 2 ^ 32)%Z /\
      forall n, n < sz -> n < 32 -> Z.testbit v (Z.of_nat n) = nth n (nth i (bspec_run sz (repeat (repeat false sz) k) ops) []) false.
Proof.
  intros Hz P. destruct (brun_ok sz false ops (repeat (bs_of_value sz 0) k) (repeat (repeat false sz) k) Hz (Sinv_init sz false k Hz)) as (s & E & S & L).
  - now rewrite repeat_length.
  - discriminate.
  - rewrite repeat_length in L. exists s. split; [exact E|]. split; [exact L|]. intros i Hi.
    destruct (Sinv_get sz false s _ i S ltac:(lia)) as (b & Eb & I). fold (bget (bspec_run sz (repeat (repeat false sz) k) ops) i). set (l := bget _ i) in *.
    pose proof (word_at sz false b l 0 I Hz) as (pre & w & post & Ew & Lp & Hw & _). cbn [Nat.div] in Lp. change (0 / 32) with 0 in Lp. destruct pre; [|discriminate Lp].
    exists b, w. split; [now apply rd_nth_error|]. split; [rewrite Ew; reflexivity|]. split; [exact Hw|]. intros n Hn H32.
    destruct (word_at sz false b l n I Hn) as (pre & w' & post' & Ew' & Lp' & _ & _ & _ & _ & _ & El). rewrite Nat.div_small in Lp' by exact H32. destruct pre; [|discriminate Lp'].
    rewrite Ew in Ew'. cbn [app] in Ew'. injection Ew' as <- _. rewrite Nat.mod_small in El by exact H32. symmetry. exact El.
Qed.
Print Assumptions C32_to_value.
(** Bits a history does not name stay: [set_bit] changes one bit. *)
Theorem C32_set_one (l : list bool) (n k : nat) (v : bool) : n < length l ->
  nth k (set_bit l n v) false = if k =? n then v else nth k l false.
Proof. exact (set_bit_nth l n v k). Qed.
Print Assumptions C32_set_one.

(** C33, for histories that do not fill the unused bits of the last word
    (sizes that are multiples of 32 have none). *)
Theorem C33_count_partial (sz k : nat) (ops : list bop) : 0 < sz -> (Z.of_nat sz < 2 ^ 63)%Z ->
  Forall (bop_pre sz k) ops -> Forall (tidy sz) ops ->
  exists s, brun sz (repeat (bs_of_value sz 0) k) ops = Ok s /\
    forall i, i < k -> exists b, nth_error s i = Some b /\
      (let l := nth i (bspec_run sz (repeat (repeat false sz) k) ops) [] in
       bs_count b = ones_in l /\ (bs_any b = true <-> (0 < ones_in l)%Z) /\ (bs_none b = true <-> ones_in l = 0%Z)).
Proof.
  intros Hz H63 P T. destruct (brun_ok sz true ops (repeat (bs_of_value sz 0) k) (repeat (repeat false sz) k) Hz (Sinv_init sz true k Hz)) as (s & E & S & L).
  - now rewrite repeat_length.
  - auto.
  - rewrite repeat_length in L. exists s. split; [exact E|]. intros i Hi.
    destruct (Sinv_get sz true s _ i S ltac:(lia)) as (b & Eb & I). exists b. split; [now apply rd_nth_error|]. cbv zeta.
    fold (bget (bspec_run sz (repeat (repeat false sz) k) ops) i). set (l := bget _ i) in *.
    split; [now apply (proj2 (bs_count_ok sz true b l H63 I))|]. pose proof (proj2 (bs_any_ok sz true b l I) eq_refl) as A. split; [exact A|].
    unfold bs_none. pose proof (ones_in_bound l). destruct (bs_any b); cbn [negb]; split; intros; try discriminate; try lia; auto.
Qed.
Print Assumptions C33_count_partial.
(** bitset<10> b; b.set(): count is 32. *)
Theorem C33_count_refuted : exists b, brun 10 [bs_of_value 10 0] [BSetAll 0] = Ok [b] /\ Forall (bop_pre 10 1) [BSetAll 0] /\
  bs_count b = 32%Z /\ ones_in (nth 0 (bspec_run 10 [repeat false 10] [BSetAll 0]) []) = 10%Z.
Proof. eexists. split; [reflexivity|]. split; [repeat constructor|]. split; vm_compute; reflexivity. Qed.
Print Assumptions C33_count_refuted.
(** bitset<10> b; b.set(); clear each bit: none is false. *)
Theorem C33_none_refuted : exists ops b, brun 10 [bs_of_value 10 0] ops = Ok [b] /\ Forall (bop_pre 10 1) ops /\
  (forall n, n < 10 -> bs_test 10 b n = Ok false) /\ bs_none b = false.
Proof.
  exists (BSetAll 0 :: map (fun n => BSet 0 n false) (seq 0 10)). eexists. split; [vm_compute; reflexivity|].
  split; [repeat constructor|]. split; [|reflexivity]. intros n Hn. do 10 (destruct n as [|n]; [reflexivity|]). lia.
Qed.
Print Assumptions C33_none_refuted.

(** C63: bitsets that compare equal have the same bits, after any history; the
    converse if the history is tidy. *)
Theorem C63_equal_partial (sz k : nat) (ops : list bop) : 0 < sz -> Forall (bop_pre sz k) ops ->
  exists s, brun sz (repeat (bs_of_value sz 0) k) ops = Ok s /\
    forall i j a b, nth_error s i = Some a -> nth_error s j = Some b ->
      exists r, bs_eq sz a b = Ok r /\
        (r = true -> nth i (bspec_run sz (repeat (repeat false sz) k) ops) [] = nth j (bspec_run sz (repeat (repeat false sz) k) ops) []) /\
        (Forall (tidy sz) ops -> nth i (bspec_run sz (repeat (repeat false sz) k) ops) [] = nth j (bspec_run sz (repeat (repeat false sz) k) ops) [] -> r = true).
Proof.
  intros Hz P. destruct (brun_ok sz false ops (repeat (bs_of_value sz 0) k) (repeat (repeat false sz) k) Hz (Sinv_init sz false k Hz)) as (s & E & S & L).
  - now rewrite repeat_length.
  - discriminate.
  - exists s. split; [exact E|]. intros i j a b Ea Eb.
    assert (G : forall c, Sinv sz c s (bspec_run sz (repeat (repeat false sz) k) ops) -> Binv sz c a (bget (bspec_run sz (repeat (repeat false sz) k) ops) i) /\
       Binv sz c b (bget (bspec_run sz (repeat (repeat false sz) k) ops) j)).
    { intros c Sc. assert (Hi : i < length s) by (apply nth_error_Some; congruence). assert (Hj : j < length s) by (apply nth_error_Some; congruence).
      destruct (Sinv_get sz c s _ i Sc Hi) as (a' & E1 & I1). destruct (Sinv_get sz c s _ j Sc Hj) as (b' & E2 & I2).
      apply rd_nth_error in E1, E2. assert (a' = a) as -> by congruence. assert (b' = b) as -> by congruence. auto. }
    destruct (G false S) as [Ia Ib]. destruct (bs_eq_ok sz false a b _ _ Hz Ia Ib) as (r & Er & R1 & _). exists r. split; [exact Er|]. split; [exact R1|].
    intros T. destruct (brun_ok sz true ops (repeat (bs_of_value sz 0) k) (repeat (repeat false sz) k) Hz (Sinv_init sz true k Hz)) as (s' & E' & S' & L').
    + now rewrite repeat_length.
    + auto.
    + assert (s' = s) as -> by congruence. destruct (G true S') as [Ja Jb]. destruct (bs_eq_ok sz true a b _ _ Hz Ja Jb) as (r' & Er' & _ & R2).
      assert (r' = r) as -> by congruence. exact (R2 eq_refl).
Qed.
Print Assumptions C63_equal_partial.
(** bitset<10> a, b; a.set(); all ten bits of b set one by one: a != b. *)
Theorem C63_equal_refuted : exists ops a b, brun 10 [bs_of_value 10 0; bs_of_value 10 0] ops = Ok [a; b] /\ Forall (bop_pre 10 2) ops /\
  (forall n, n < 10 -> bs_test 10 a n = Ok true /\ bs_test 10 b n = Ok true) /\ bs_eq 10 a b = Ok false.
Proof.
  exists (BSetAll 0 :: map (fun n => BSet 1 n true) (seq 0 10)). eexists; eexists. split; [vm_compute; reflexivity|].
  split; [repeat constructor|]. split; [|reflexivity]. intros n Hn. do 10 (destruct n as [|n]; [split; reflexivity|]). lia.
Qed.
Print Assumptions C63_equal_refuted.

(** C64: at (first, last) gives the number with those bits, and set (first,
    last, v) puts v there - if the bits there were zero; else it adds to them. *)
Theorem C64_at_range (sz k : nat) (ops : list bop) (i first last : nat) : 0 < sz -> Forall (bop_pre sz k) ops -> i < k ->
  first < last -> last <= sz -> last - first <= 32 -> first / 32 = last / 32 ->
  exists s b v, brun sz (repeat (bs_of_value sz 0) k) ops = Ok s /\ nth_error s i = Some b /\ bs_at_range sz b first last = Ok v /\
    (0 <= v < 2 ^ Z.of_nat (last - first))%Z /\
    forall n, n < last - first -> Z.testbit v (Z.of_nat n) = nth (first + n) (nth i (bspec_run sz (repeat (repeat false sz) k) ops) []) false.
Proof.
  intros Hz P Hi H1 H2 H3 H4. destruct (brun_ok sz false ops (repeat (bs_of_value sz 0) k) (repeat (repeat false sz) k) Hz (Sinv_init sz false k Hz)) as (s & E & S & L).
  - now rewrite repeat_length.
  - discriminate.
  - rewrite repeat_length in L. destruct (Sinv_get sz false s _ i S ltac:(lia)) as (b & Eb & I).
    destruct (bs_at_range_ok sz false b _ first last I H1 H2) as (v & Ev & V1 & V2); [unfold range_ok; rewrite H4, Nat.eqb_refl; lia|].
    exists s, b, v. split; [exact E|]. split; [now apply rd_nth_error|]. auto.
Qed.
Print Assumptions C64_at_range.
Theorem C64_set_range_partial (sz k : nat) (ops : list bop) (i first last : nat) (v : Z) : 0 < sz -> Forall (bop_pre sz k) ops -> i < k ->
  first < last -> last <= sz -> last - first <= 32 -> first / 32 = last / 32 -> (0 <= v < 2 ^ Z.of_nat (last - first))%Z ->
  (forall n, first <= n < last -> nth n (nth i (bspec_run sz (repeat (repeat false sz) k) ops) []) false = false) ->
  exists s b b', brun sz (repeat (bs_of_value sz 0) k) ops = Ok s /\ nth_error s i = Some b /\ bs_set_range sz b first last v = Ok b' /\
    bs_at_range sz b' first last = Ok v /\
    forall n, n < sz -> (n < first \/ last <= n) -> bs_test sz b' n = bs_test sz b n.
Proof.
  intros Hz P Hi H1 H2 H3 H4 Hv H0. destruct (brun_ok sz false ops (repeat (bs_of_value sz 0) k) (repeat (repeat false sz) k) Hz (Sinv_init sz false k Hz)) as (s & E & S & L).
  - now rewrite repeat_length.
  - discriminate.
  - rewrite repeat_length in L. destruct (Sinv_get sz false s _ i S ltac:(lia)) as (b & Eb & I). unfold bget in I.
    assert (R : range_ok first last = true) by (unfold range_ok; rewrite H4, Nat.eqb_refl; lia).
    destruct (bs_set_range_ok sz false b _ first last v I H1 H2 R Hv) as (b' & l' & E' & I' & F).
    exists s, b, b'. split; [exact E|]. split; [now apply rd_nth_error|]. split; [exact E'|].
    destruct (bs_at_range_ok sz false b' l' first last I' H1 H2 R) as (u & Eu & U1 & U2). split.
    + rewrite Eu. f_equal. apply Z.bits_inj. intros j. destruct (Z.lt_ge_cases j 0); [now rewrite !Z.testbit_neg_r|].
      assert (Hi' : forall x, (0 <= x < 2 ^ Z.of_nat (last - first))%Z -> (Z.of_nat (last - first) <= j)%Z -> Z.testbit x j = false).
      { intros x Hx Hj. destruct (Z.eq_dec x 0) as [-> | Nx]; [apply Z.bits_0|]. apply Z.bits_above_log2; [lia|]. apply Z.log2_lt_pow2; [lia|].
        apply (Z.lt_le_trans _ (2 ^ Z.of_nat (last - first))); [lia|]. apply Z.pow_le_mono_r; lia. }
      destruct (Z.lt_ge_cases j (Z.of_nat (last - first))) as [Hj | Hj]; [|now rewrite !Hi'].
      replace j with (Z.of_nat (Z.to_nat j)) by lia. rewrite U2 by lia. rewrite F by lia. rewrite H0 by lia.
      replace ((first <=? first + Z.to_nat j) && (first + Z.to_nat j <? last)) with true by lia. cbn [orb andb]. f_equal. lia.
    + intros n Hn Ho. rewrite (bs_test_ok sz false b' l' n I' Hn), (bs_test_ok sz false b _ n I Hn), F by exact Hn.
      replace ((first <=? n) && (n <? last)) with false by lia. cbn [andb]. now rewrite orb_false_r.
Qed.
Print Assumptions C64_set_range_partial.
(** bitset<40> b; b.set (0,4,5); b.set (0,4,2): the value is now 7. *)
Theorem C64_set_range_refuted : exists b1 b2, bs_set_range 40 (bs_of_value 40 0) 0 4 5 = Ok b1 /\ bs_set_range 40 b1 0 4 2 = Ok b2 /\
  bs_at_range 40 b2 0 4 = Ok 7%Z.
Proof. eexists; eexists. repeat split; vm_compute; reflexivity. Qed.
Print Assumptions C64_set_range_refuted.

(** Non-vacuity. *)
Definition bops1 : list bop :=
  [BValue 0 4294967295; BSet 0 3 false; BFlip 1 69; BSet 1 0 true; BOr 2 0 1; BXor 1 1 2; BAnd 0 0 2; BString 2 [49; 48; 49; 49]%Z; BFlip 2 33].
Example C32_case : Forall (bop_pre 70 3) bops1 /\ Forall (tidy 70) bops1 /\
  map (fun l => ones_in l) (bspec_run 70 (repeat (repeat false 70) 3) bops1) = [31; 30; 4]%Z.
Proof.
  split; [repeat (apply Forall_cons; [cbn; lia|]); apply Forall_nil|]. split; [repeat (apply Forall_cons; [cbn; lia|]); apply Forall_nil|]. vm_compute. reflexivity.
Qed.
