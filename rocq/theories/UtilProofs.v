(** * UtilProofs: facts about the integer utilities. *)
From Verif Require Import Base UtilModel UtilSpec.
From Coq Require Import ZArith Znumtheory.
Local Open Scope Z_scope.

Lemma umin_spec a b : umin a b = Z.min a b.
Proof. unfold umin. destruct (Z.ltb_spec a b); lia. Qed.
Lemma umax_spec a b : umax a b = Z.max a b.
Proof. unfold umax. destruct (Z.ltb_spec b a); lia. Qed.

Lemma align_down_ok n g : 0 <= n -> 0 < g ->
  exists r, align_down n g = Ok r /\ (g | r) /\ r <= n < r + g.
Proof.
  intros Hn Hg. unfold align_down. destruct (Z.eqb_spec g 0); [lia|].
  exists (n - n mod g). split; [reflexivity|].
  pose proof (Z.mod_pos_bound n g Hg). split; [|lia].
  exists (n / g). pose proof (Z.div_mod n g). lia.
Qed.

Lemma align_ok n g : 0 <= n -> 0 < g -> n + g - 1 < two64 ->
  exists r, align n g = Ok r /\ (g | r) /\ n <= r < n + g.
Proof.
  intros Hn Hg Hb. unfold align, u64. rewrite Z.mod_small by (unfold two64 in *; lia).
  destruct (align_down_ok (n + g - 1) g) as (r & E & D & B); [lia|lia|].
  exists r. split; [exact E|]. split; [exact D|]. lia.
Qed.

Lemma absv_abs v : absv v = Z.abs v.
Proof. unfold absv. destruct (Z.ltb_spec v 0); lia. Qed.
Lemma sign_sgn v : sign v = Z.sgn v.
Proof. unfold sign. destruct (Z.ltb_spec 0 v), (Z.ltb_spec v 0); lia. Qed.

Lemma gcd_rem a b : b <> 0 -> Z.gcd b (Z.rem a b) = Z.gcd a b.
Proof.
  intros H.
  pose proof (Z.quot_rem' a b) as E.
  transitivity (Z.gcd b a); [|apply Z.gcd_comm].
  rewrite E at 2. rewrite (Z.mul_comm b), Z.add_comm. now rewrite Z.gcd_add_mult_diag_r.
Qed.

Lemma gcd_fuel_ok fuel : forall a b, Z.abs b < Z.of_nat fuel ->
  gcd_fuel fuel a b = Ok (Z.gcd a b).
Proof.
  induction fuel as [|f IH]; intros a b H; [lia|].
  cbn [gcd_fuel]. destruct (Z.eqb_spec b 0) as [->|Hb].
  - now rewrite absv_abs, Z.gcd_0_r.
  - rewrite IH.
    + now rewrite gcd_rem.
    + pose proof (Z.rem_bound_abs a b Hb). lia.
Qed.

Lemma gcd_ok a b : gcd a b = Ok (Z.gcd a b).
Proof. unfold gcd. apply gcd_fuel_ok. lia. Qed.

Lemma lcm_ok a b : a <> 0 \/ b <> 0 ->
  exists r, lcm a b = Ok r /\ Z.abs r = Z.lcm a b /\ (0 <= a -> 0 <= b -> r = Z.lcm a b).
Proof.
  intros H. unfold lcm. rewrite gcd_ok. cbn [bind].
  assert (Z.gcd a b <> 0) as Hg.
  { intros E. apply Z.gcd_eq_0 in E. lia. }
  destruct (Z.eqb_spec (Z.gcd a b) 0); [contradiction|].
  exists (Z.quot a (Z.gcd a b) * b). split; [reflexivity|].
  assert (Z.abs (Z.quot a (Z.gcd a b) * b) = Z.lcm a b) as E.
  { destruct (Z.gcd_divide_l a b) as [q Hq].
    assert (Z.quot a (Z.gcd a b) = q) as ->.
    { rewrite Hq at 1. now rewrite Z.quot_mul. }
    unfold Z.lcm. 
    destruct (Z.gcd_divide_r a b) as [p Hp].
    assert (b / Z.gcd a b = p) as ->.
    { rewrite Hp at 1. now rewrite Z.div_mul. }
    f_equal. rewrite Hq at 1. rewrite Hp at 1. ring. }
  split; [exact E|]. intros Ha Hb. rewrite <- E. symmetry. apply Z.abs_eq.
  apply Z.mul_nonneg_nonneg; [|exact Hb].
  pose proof (Z.gcd_nonneg a b). apply Z.quot_pos; lia.
Qed.

Lemma div_ru_ok n1 n2 : 0 < n2 ->
  exists r, div_ru n1 n2 = Ok r /\
    (0 <= n1 -> n2 * (r - 1) < n1 <= n2 * r) /\
    (n1 < 0 -> n2 * r <= n1 < n2 * (r + 1)).
Proof.
  intros H. unfold div_ru. destruct (Z.eqb_spec n2 0); [lia|].
  destruct (Z.ltb_spec n1 0) as [L|L]; eexists; (split; [reflexivity|]); split; try lia; intros _.
  - replace (n1 + - (n2 - 1)) with (- ( - n1 + (n2 - 1))) by ring.
    rewrite Z.quot_opp_l by lia. rewrite Z.quot_div_nonneg by lia.
    pose proof (Z.div_mod (- n1 + (n2 - 1)) n2). pose proof (Z.mod_pos_bound (- n1 + (n2 - 1)) n2). nia.
  - rewrite Z.quot_div_nonneg by lia.
    pose proof (Z.div_mod (n1 + (n2 - 1)) n2). pose proof (Z.mod_pos_bound (n1 + (n2 - 1)) n2). nia.
Qed.

(** ** FirstBit and NextPow2 *)
Lemma first_bit_loop_ok n : forall v, 0 < v < 2 ^ (Z.of_nat n + 1) ->
  first_bit_loop n v = Z.log2 v.
Proof.
  induction n as [|n IH]; intros v H.
  - change (2 ^ (Z.of_nat 0 + 1)) with 2 in H. assert (v = 1) by lia. subst v. reflexivity.
  - cbn [first_bit_loop]. destruct (Z.testbit v (Z.of_nat (S n))) eqn:E.
    + symmetry. apply Z.log2_unique; [lia|]. split; [|unfold Z.succ; lia].
      destruct (Z.le_gt_cases (2 ^ Z.of_nat (S n)) v); [auto|].
      rewrite Z.bits_above_log2 in E; [discriminate|lia|].
      apply Z.log2_lt_pow2; lia.
    + apply IH. split; [lia|]. replace (Z.of_nat n + 1) with (Z.of_nat (S n)) by lia.
      destruct (Z.le_gt_cases (2 ^ Z.of_nat (S n)) v) as [L|]; [|lia].
      assert (Z.log2 v = Z.of_nat (S n)) as El.
      { apply Z.log2_unique; [lia|]. unfold Z.succ. lia. }
      rewrite <- El, Z.bit_log2 in E by lia. discriminate.
Qed.

Lemma first_bit_ok top v nbv : 0 <= v < 2 ^ (Z.of_nat top + 1) ->
  (v = 0 -> first_bit top v nbv = nbv) /\
  (v <> 0 -> 2 ^ first_bit top v nbv <= v < 2 ^ (first_bit top v nbv + 1)).
Proof.
  intros H. unfold first_bit. destruct (Z.eqb_spec v 0); split; try lia; intros _.
  rewrite first_bit_loop_ok by lia. pose proof (Z.log2_spec v). unfold Z.succ in *. lia.
Qed.

Lemma next_pow2_val v : 2 <= v <= 2 ^ 31 -> next_pow2 v = 2 ^ (1 + Z.log2 (v - 1)).
Proof.
  intros H. unfold next_pow2, u32. rewrite (Z.mod_small (v - 1)) by (unfold two32; lia).
  unfold first_bit. destruct (Z.eqb_spec (v - 1) 0); [lia|].
  rewrite first_bit_loop_ok by (change (2 ^ (Z.of_nat 31 + 1)) with (2 ^ 32); lia).
  assert (Z.log2 (v - 1) <= 30).
  { assert (Z.log2 (v - 1) < 31); [|lia]. apply Z.log2_lt_pow2; lia. }
  pose proof (Z.log2_nonneg (v - 1)).
  destruct (Z.leb_spec 31 (Z.log2 (v - 1))); [lia|].
  rewrite (Z.mod_small (1 + _)) by (unfold two32; lia).
  rewrite Z.shiftl_1_l. apply Z.mod_small. split; [apply Z.pow_nonneg; lia|].
  change two32 with (2 ^ 32). apply Z.pow_lt_mono_r; lia.
Qed.

Lemma next_pow2_ok v : 2 <= v <= 2 ^ 31 ->
  exists k, 0 <= k /\ next_pow2 v = 2 ^ k /\ v <= 2 ^ k /\ 2 ^ (k - 1) < v.
Proof.
  intros H. exists (1 + Z.log2 (v - 1)).
  pose proof (Z.log2_nonneg (v - 1)). pose proof (Z.log2_spec (v - 1)).
  split; [lia|]. split; [now apply next_pow2_val|].
  replace (1 + Z.log2 (v - 1) - 1) with (Z.log2 (v - 1)) by lia.
  unfold Z.succ in *. rewrite (Z.add_comm 1). lia.
Qed.

Lemma next_pow2_1 : next_pow2 1 = 2. Proof. reflexivity. Qed.
Lemma next_pow2_0 : next_pow2 0 = 1. Proof. reflexivity. Qed.

Lemma next_pow2_big v : 2 ^ 31 < v < 2 ^ 32 -> next_pow2 v = 1.
Proof.
  intros H. unfold next_pow2, u32. rewrite (Z.mod_small (v - 1)) by (unfold two32; lia).
  unfold first_bit. destruct (Z.eqb_spec (v - 1) 0); [lia|].
  rewrite first_bit_loop_ok by (change (2 ^ (Z.of_nat 31 + 1)) with (2 ^ 32); lia).
  assert (Z.log2 (v - 1) = 31) as -> by (apply Z.log2_unique; lia).
  reflexivity.
Qed.

Lemma next_pow2_ge v : 0 <= v <= 2 ^ 31 -> v <= next_pow2 v /\ 1 <= next_pow2 v.
Proof.
  intros H. assert (v = 0 \/ v = 1 \/ 2 <= v) as [->|[->|L]] by lia.
  - rewrite next_pow2_0. lia.
  - rewrite next_pow2_1. lia.
  - destruct (next_pow2_ok v) as (k & Hk & -> & Hl & _); [lia|]. lia.
Qed.

(** ** Byte order *)
Lemma bytes_le_length n : forall v, length (bytes_le n v) = n.
Proof. induction n; intros v; simpl; auto. Qed.
Lemma bytes_le_range n : forall v, Forall (fun b => 0 <= b < 256) (bytes_le n v).
Proof.
  induction n; intros v; simpl; constructor; auto. apply Z.mod_pos_bound. lia.
Qed.
Lemma of_bytes_bytes n : forall v, 0 <= v < 256 ^ Z.of_nat n ->
  of_bytes_le (bytes_le n v) = v.
Proof.
  induction n; intros v H.
  - change (256 ^ Z.of_nat 0) with 1 in H. cbn. lia.
  - cbn [bytes_le of_bytes_le]. rewrite IHn.
    + pose proof (Z.div_mod v 256). lia.
    + rewrite Nat2Z.inj_succ, Z.pow_succ_r in H by lia.
      split; [apply Z.div_pos; lia|]. apply Z.div_lt_upper_bound; lia.
Qed.
Lemma bytes_of_bytes l : Forall (fun b => 0 <= b < 256) l ->
  bytes_le (length l) (of_bytes_le l) = l.
Proof.
  induction l as [|b t IH]; intros H; [reflexivity|].
  inversion H; subst. cbn [length bytes_le of_bytes_le].
  replace (b + 256 * of_bytes_le t) with (b + of_bytes_le t * 256) by ring.
  rewrite Z.mod_add, Z.div_add by lia.
  rewrite Z.mod_small, Z.div_small by lia. f_equal. apply IH; auto.
Qed.
Lemma of_bytes_range l : Forall (fun b => 0 <= b < 256) l ->
  0 <= of_bytes_le l < 256 ^ Z.of_nat (length l).
Proof.
  induction l as [|b t IH]; intros H; [cbn; lia|].
  inversion H; subst. cbn [length of_bytes_le].
  rewrite Nat2Z.inj_succ, Z.pow_succ_r by lia. specialize (IH ltac:(auto)). lia.
Qed.

Lemma bswap_bytes n v : bytes_le n (bswap n v) = rev (bytes_le n v).
Proof.
  unfold bswap. rewrite <- (bytes_le_length n v) at 1. rewrite <- rev_length.
  apply bytes_of_bytes. apply Forall_rev, bytes_le_range.
Qed.
Lemma bswap_range n v : 0 <= bswap n v < 256 ^ Z.of_nat n.
Proof.
  unfold bswap. pose proof (of_bytes_range (rev (bytes_le n v)) ltac:(apply Forall_rev, bytes_le_range)) as H.
  now rewrite rev_length, bytes_le_length in H.
Qed.
Lemma bswap_bswap n v : 0 <= v < 256 ^ Z.of_nat n -> bswap n (bswap n v) = v.
Proof.
  intros H. unfold bswap at 1. rewrite bswap_bytes, rev_involutive. now apply of_bytes_bytes.
Qed.

(** ** Rotations *)
Lemma rol_ok w v n : 0 < n < w -> 0 <= v < 2 ^ w ->
  exists r, rol w v n = Ok r /\ 0 <= r < 2 ^ w /\
    forall i, 0 <= i < w -> Z.testbit r ((i + n) mod w) = Z.testbit v i.
Proof.
  intros Hn Hv. unfold rol.
  destruct (Z.leb_spec w n); [lia|]. destruct (Z.leb_spec w (w - n)); [lia|].
  cbn [orb]. eexists. split; [reflexivity|].
  assert (0 <= Z.shiftl v n mod 2 ^ w < 2 ^ w) by (apply Z.mod_pos_bound; lia).
  assert (0 <= Z.shiftr v (w - n) < 2 ^ w).
  { rewrite Z.shiftr_div_pow2 by lia. split; [apply Z.div_pos; lia|].
    apply Z.div_lt_upper_bound; [lia|]. nia. }
  split.
  { split; [apply Z.lor_nonneg; lia|].
    destruct (Z.eq_dec (Z.lor (Z.shiftl v n mod 2 ^ w) (Z.shiftr v (w - n))) 0) as [->|NZ].
    - apply Z.pow_pos_nonneg; lia.
    - apply Z.log2_lt_pow2.
      + assert (0 <= Z.lor (Z.shiftl v n mod 2 ^ w) (Z.shiftr v (w - n))) by (apply Z.lor_nonneg; lia). lia.
      + rewrite Z.log2_lor by lia. apply Z.max_lub_lt.
        * destruct (Z.eq_dec (Z.shiftl v n mod 2 ^ w) 0) as [->|]; [rewrite Z.log2_nonpos by lia; lia|apply Z.log2_lt_pow2; lia].
        * destruct (Z.eq_dec (Z.shiftr v (w - n)) 0) as [->|]; [rewrite Z.log2_nonpos by lia; lia|apply Z.log2_lt_pow2; lia]. }
  intros i Hi. rewrite Z.lor_spec.
  destruct (Z.lt_ge_cases (i + n) w) as [L|L].
  - rewrite (Z.mod_small (i + n)) by lia.
    rewrite Z.mod_pow2_bits_low by lia. rewrite Z.shiftl_spec by lia.
    replace (i + n - n) with i by lia. rewrite Z.shiftr_spec by lia.
    assert (Z.testbit v (i + n + (w - n)) = false) as ->.
    { destruct (Z.eq_dec v 0) as [->|]; [apply Z.bits_0|].
      apply Z.bits_above_log2; [lia|]. assert (Z.log2 v < w) by (apply Z.log2_lt_pow2; lia). lia. }
    apply orb_false_r.
  - assert ((i + n) mod w = i + n - w) as ->.
    { symmetry. apply Z.mod_unique with 1; lia. }
    rewrite Z.mod_pow2_bits_low by lia. rewrite Z.shiftl_spec by lia.
    rewrite Z.testbit_neg_r by lia. rewrite Z.shiftr_spec by lia.
    cbn [orb]. f_equal. lia.
Qed.

Lemma ror_ok w v n : 0 < n < w -> 0 <= v < 2 ^ w ->
  exists r, ror w v n = Ok r /\ rol w v (w - n) = Ok r.
Proof.
  intros Hn Hv. unfold ror, rol.
  destruct (Z.leb_spec w n); [lia|]. destruct (Z.leb_spec w (w - n)); [lia|].
  destruct (Z.leb_spec w (w - (w - n))); [lia|].
  cbn [orb]. eexists. split; [reflexivity|].
  f_equal. rewrite Z.lor_comm. f_equal. f_equal. lia.
Qed.

Lemma bits_eq_below w a b : 0 <= a < 2 ^ w -> 0 <= b < 2 ^ w -> 0 <= w ->
  (forall i, 0 <= i < w -> Z.testbit a i = Z.testbit b i) -> a = b.
Proof.
  intros Ha Hb Hw H. apply Z.bits_inj'. intros n Hn.
  destruct (Z.lt_ge_cases n w) as [L|L]; [apply H; lia|].
  rewrite <- (Z.mod_small a (2 ^ w)), <- (Z.mod_small b (2 ^ w)) by lia.
  now rewrite !Z.mod_pow2_bits_high by lia.
Qed.

Lemma rol_ror w v n r : 0 < n < w -> 0 <= v < 2 ^ w -> rol w v n = Ok r -> ror w r n = Ok v.
Proof.
  intros Hn Hv E. destruct (rol_ok w v n Hn Hv) as (r' & E' & Hr & Hb).
  rewrite E in E'. injection E' as <-.
  destruct (ror_ok w r n Hn Hr) as (q & Eq1 & Eq2).
  destruct (rol_ok w r (w - n) ltac:(lia) Hr) as (q' & Eq3 & Hq & Hqb).
  rewrite Eq2 in Eq3. injection Eq3 as <-. rewrite Eq1. f_equal.
  apply (bits_eq_below w); [lia|lia|lia|]. intros i Hi.
  rewrite <- (Hb i Hi). rewrite <- (Hqb ((i + n) mod w)) by (apply Z.mod_pos_bound; lia).
  f_equal. destruct (Z.lt_ge_cases (i + n) w) as [L|L].
  - rewrite (Z.mod_small (i + n)) by lia. apply Z.mod_unique with 1; lia.
  - assert ((i + n) mod w = i + n - w) as -> by (symmetry; apply Z.mod_unique with 1; lia).
    rewrite Z.mod_small; lia.
Qed.

(** ** Bit counting *)
Definition byte (b : Z) : Prop := 0 <= b < 256.

Lemma testbit_cons b t i : byte b -> 0 <= i ->
  Z.testbit (b + 256 * t) i = if i <? 8 then Z.testbit b i else Z.testbit t (i - 8).
Proof.
  intros Hb Hi. unfold byte in Hb. destruct (Z.ltb_spec i 8).
  - rewrite <- (Z.mod_pow2_bits_low (b + 256 * t) 8 i) by lia.
    change (2 ^ 8) with 256. rewrite (Z.mul_comm 256), Z.mod_add by lia.
    now rewrite Z.mod_small by lia.
  - replace i with ((i - 8) + 8) at 1 by lia. rewrite <- Z.shiftr_spec by lia.
    rewrite Z.shiftr_div_pow2 by lia. change (2 ^ 8) with 256.
    rewrite (Z.mul_comm 256), Z.div_add, Z.div_small by lia. reflexivity.
Qed.

Lemma testbit_high_byte b i : byte b -> 8 <= i -> Z.testbit b i = false.
Proof.
  intros Hb Hi. unfold byte in Hb. rewrite <- (Z.mod_small b (2 ^ 8)) by (change (2 ^ 8) with 256; lia).
  apply Z.mod_pow2_bits_high. lia.
Qed.

Lemma land_byte x b : byte b -> byte (Z.land x b).
Proof.
  intros Hb. unfold byte in *. split; [apply Z.land_nonneg; lia|].
  destruct (Z.eq_dec (Z.land x b) 0) as [->|NZ]; [lia|].
  assert (0 <= Z.land x b) by (apply Z.land_nonneg; lia).
  change 256 with (2 ^ 8). 
  destruct (Z.lt_ge_cases (Z.land x b) (2 ^ 8)) as [|L]; [auto|].
  exfalso. assert (8 <= Z.log2 (Z.land x b)) by (apply Z.log2_le_pow2; lia).
  pose proof (Z.bit_log2 (Z.land x b)) as HB.
  rewrite Z.land_spec in HB. rewrite (testbit_high_byte b) in HB by (auto; lia).
  rewrite andb_false_r in HB. specialize (HB ltac:(lia)). discriminate.
Qed.

(** Shift-and-mask acts byte by byte when the mask drops the top [s] bits of every byte. *)
Lemma shift_mask l s m : 0 <= s < 8 -> 0 <= m < 2 ^ (8 - s) -> Forall byte l ->
  Z.land (Z.shiftr (of_bytes_le l) s) (of_bytes_le (repeat m (length l))) =
  of_bytes_le (map (fun b => Z.land (Z.shiftr b s) m) l).
Proof.
  intros Hs Hm. assert (byte m) as Bm.
  { unfold byte. change 256 with (2 ^ 8). assert (2 ^ (8 - s) <= 2 ^ 8) by (apply Z.pow_le_mono_r; lia). lia. }
  induction l as [|b t IH]; intros H; [cbn; apply Z.land_0_r|].
  inversion H; subst. cbn [length repeat of_bytes_le map]. rewrite <- IH by auto.
  apply Z.bits_inj'. intros i Hi. rewrite Z.land_spec, Z.shiftr_spec by lia.
  rewrite (testbit_cons _ _ (i + s)) by (auto; lia).
  rewrite (testbit_cons m) by auto.
  rewrite (testbit_cons (Z.land _ m)) by (auto using land_byte).
  destruct (Z.ltb_spec i 8) as [L|L].
  - rewrite Z.land_spec, Z.shiftr_spec by lia.
    destruct (Z.ltb_spec (i + s) 8); [reflexivity|].
    assert (Z.testbit m i = false) as ->; [|now rewrite !andb_false_r].
    rewrite <- (Z.mod_small m (2 ^ (8 - s))) by lia. apply Z.mod_pow2_bits_high. lia.
  - destruct (Z.ltb_spec (i + s) 8); [lia|].
    rewrite Z.land_spec, Z.shiftr_spec by lia. f_equal. f_equal. lia.
Qed.

Lemma of_bytes_zip (f g h : Z -> Z) l : (forall b, byte b -> h b = f b + g b) -> Forall byte l ->
  of_bytes_le (map h l) = of_bytes_le (map f l) + of_bytes_le (map g l).
Proof.
  intros E H. induction H as [|b t Hb Ht IH]; cbn [map of_bytes_le]; [reflexivity|]. rewrite IH, E by auto. lia.
Qed.

Lemma map_byte (f : Z -> Z) l : (forall b, byte b -> byte (f b)) -> Forall byte l -> Forall byte (map f l).
Proof. intros E H. induction H; cbn; constructor; auto. Qed.

Lemma byte_all (P : Z -> bool) : forallb P (map Z.of_nat (seq 0 256)) = true ->
  forall b, byte b -> P b = true.
Proof.
  intros H b Hb. rewrite forallb_forall in H. apply H.
  rewrite in_map_iff. exists (Z.to_nat b). unfold byte in Hb. split; [lia|]. apply in_seq. lia.
Qed.

Definition pc1 b := b - Z.land (Z.shiftr b 1) 0x55.
Definition pc2 b := Z.land b 0x33 + Z.land (Z.shiftr b 2) 0x33.
Definition pc3 b := Z.land (b + Z.shiftr b 4) 0x0F.

Lemma pc1_byte b : byte b -> byte (pc1 b).
Proof.
  intros H. apply (byte_all (fun b => (0 <=? pc1 b) && (pc1 b <? 256))) in H; [|vm_compute; reflexivity].
  rewrite andb_true_iff, Z.leb_le, Z.ltb_lt in H. exact H.
Qed.
Lemma pc2_byte b : byte b -> byte (pc2 b).
Proof.
  intros H. apply (byte_all (fun b => (0 <=? pc2 b) && (pc2 b <? 256))) in H; [|vm_compute; reflexivity].
  rewrite andb_true_iff, Z.leb_le, Z.ltb_lt in H. exact H.
Qed.
Lemma pc_ones b : byte b -> pc3 (pc2 (pc1 b)) = ones 8 b.
Proof.
  intros H. apply (byte_all (fun b => (pc3 (pc2 (pc1 b)) =? ones 8 b))) in H; [|vm_compute; reflexivity].
  now apply Z.eqb_eq.
Qed.
(** After step 2 every nibble is at most 4, so step 3's addition stays inside the byte and
    its mask drops only what the neighbouring byte shifted in. *)
Lemma pc2_small b : byte b -> 0 <= pc2 (pc1 b) + Z.shiftr (pc2 (pc1 b)) 4 < 256 /\ pc2 (pc1 b) <= 0x44.
Proof.
  intros H. apply (byte_all (fun b => (0 <=? pc2 (pc1 b) + Z.shiftr (pc2 (pc1 b)) 4)
     && (pc2 (pc1 b) + Z.shiftr (pc2 (pc1 b)) 4 <? 256) && (pc2 (pc1 b) <=? 0x44))) in H; [|vm_compute; reflexivity].
  rewrite !andb_true_iff, !Z.leb_le, Z.ltb_lt in H. tauto.
Qed.

Fixpoint sh4 (l : list Z) : list Z :=
  match l with
  | [] => []
  | b :: t => (Z.shiftr b 4 + 16 * (match t with [] => 0 | b' :: _ => b' mod 16 end)) :: sh4 t
  end.

Lemma shiftr4_of_bytes l : Forall byte l -> Z.shiftr (of_bytes_le l) 4 = of_bytes_le (sh4 l).
Proof.
  induction l as [|b t IH]; intros H; [reflexivity|].
  inversion H as [|? ? Hb Ht]; subst. specialize (IH Ht). cbn [of_bytes_le sh4]. rewrite <- IH.
  rewrite !Z.shiftr_div_pow2 by lia. change (2 ^ 4) with 16.
  destruct t as [|b' t'].
  - cbn [of_bytes_le]. rewrite Z.div_0_l by lia. rewrite !Z.mul_0_r, !Z.add_0_r. reflexivity.
  - cbn [of_bytes_le]. inversion Ht as [|? ? Hb' Ht']; subst.
    generalize (of_bytes_le t'). intros z. unfold byte in *.
    Z.div_mod_to_equations. lia.
Qed.

Lemma land15 x : Z.land x 0x0F = x mod 16.
Proof. change 0x0F with (Z.ones 4). rewrite Z.land_ones by lia. reflexivity. Qed.

Lemma pc3_list l : Forall byte l ->
  let v := of_bytes_le (map pc2 (map pc1 l)) in
  v + Z.shiftr v 4 = of_bytes_le (map (fun p => fst p + snd p) (combine (map pc2 (map pc1 l)) (sh4 (map pc2 (map pc1 l))))) /\
  Forall byte (map (fun p => fst p + snd p) (combine (map pc2 (map pc1 l)) (sh4 (map pc2 (map pc1 l))))) /\
  map (fun b => Z.land (Z.shiftr b 0) 0x0F) (map (fun p => fst p + snd p) (combine (map pc2 (map pc1 l)) (sh4 (map pc2 (map pc1 l)))))
    = map (ones 8) l.
Proof.
  intros H v. subst v. rewrite shiftr4_of_bytes by (apply map_byte; [exact pc2_byte|apply map_byte; [exact pc1_byte|exact H]]).
  induction H as [|b t Hb Ht IH]; [split; [reflexivity|split; [constructor|reflexivity]]|].
  destruct IH as (I1 & I2 & I3). 
  cbn [map sh4 combine of_bytes_le]. cbn [fst snd].
  pose proof (pc2_small b Hb) as (S1 & S2).
  assert (0 <= match map pc2 (map pc1 t) with [] => 0 | b' :: _ => b' mod 16 end <= 4) as HN.
  { destruct Ht as [|b' t' Hb' Ht']; [cbn [map]; lia|]. cbn [map]. 
    assert (pc2 (pc1 b') mod 16 <=? 4 = true) as HL.
    { apply (byte_all (fun b => pc2 (pc1 b) mod 16 <=? 4)); [vm_compute; reflexivity|exact Hb']. }
    apply Z.leb_le in HL. pose proof (Z.mod_pos_bound (pc2 (pc1 b')) 16). lia. }
  revert HN I1 I2 I3.
  generalize (match map pc2 (map pc1 t) with [] => 0 | b' :: _ => b' mod 16 end). intros x HN I1 I2 I3.
  assert (pc2 (pc1 b) + Z.shiftr (pc2 (pc1 b)) 4 <=? 0x48 = true) as HS.
  { apply (byte_all (fun b => pc2 (pc1 b) + Z.shiftr (pc2 (pc1 b)) 4 <=? 0x48)); [vm_compute; reflexivity|exact Hb]. }
  apply Z.leb_le in HS.
  split; [rewrite <- I1; lia|]. split; [constructor; [unfold byte; lia|exact I2]|].
  rewrite I3. f_equal. rewrite Z.shiftr_0_r, land15.
  replace (pc2 (pc1 b) + (Z.shiftr (pc2 (pc1 b)) 4 + 16 * x)) with (pc2 (pc1 b) + Z.shiftr (pc2 (pc1 b)) 4 + x * 16) by lia.
  rewrite Z.mod_add by lia. rewrite <- land15. apply pc_ones. exact Hb.
Qed.

Ltac sm := first [assumption | split; [vm_compute; discriminate | vm_compute; reflexivity]].

Lemma pc_steps l (W : Z) : Forall byte l -> W = 256 ^ Z.of_nat (length l) ->
  let v := of_bytes_le l in
  let n := length l in
  let v1 := (v - Z.land (Z.shiftr v 1) (of_bytes_le (repeat 0x55 n))) mod W in
  let v2 := (Z.land v1 (of_bytes_le (repeat 0x33 n)) + Z.land (Z.shiftr v1 2) (of_bytes_le (repeat 0x33 n))) mod W in
  Z.land ((v2 + Z.shiftr v2 4) mod W) (of_bytes_le (repeat 0x0F n)) = of_bytes_le (map (ones 8) l).
Proof.
  intros H ->. cbv zeta.
  assert (of_bytes_le l - Z.land (Z.shiftr (of_bytes_le l) 1) (of_bytes_le (repeat 0x55 (length l))) = of_bytes_le (map pc1 l)) as E1.
  { rewrite shift_mask by sm.
    rewrite <- (map_id l) at 1.
    rewrite (of_bytes_zip pc1 (fun b => Z.land (Z.shiftr b 1) 0x55) (fun b => b)); [lia| |exact H].
    intros b _. unfold pc1. lia. }
  rewrite E1.
  assert (Forall byte (map pc1 l)) as B1 by (apply map_byte; [exact pc1_byte|exact H]).
  rewrite (Z.mod_small (of_bytes_le (map pc1 l))) by (rewrite <- (map_length pc1 l); now apply of_bytes_range).
  assert (Z.land (of_bytes_le (map pc1 l)) (of_bytes_le (repeat 0x33 (length l))) +
          Z.land (Z.shiftr (of_bytes_le (map pc1 l)) 2) (of_bytes_le (repeat 0x33 (length l))) = of_bytes_le (map pc2 (map pc1 l))) as E2.
  { rewrite <- (map_length pc1 l) at 1 2.
    rewrite (shift_mask _ 2) by sm.
    rewrite <- (Z.shiftr_0_r (of_bytes_le (map pc1 l))) at 1.
    rewrite (shift_mask _ 0) by sm.
    symmetry. apply of_bytes_zip; [|exact B1]. intros b _. unfold pc2. now rewrite Z.shiftr_0_r. }
  rewrite E2.
  assert (Forall byte (map pc2 (map pc1 l))) as B2 by (apply map_byte; [exact pc2_byte|exact B1]).
  assert (forall l', Forall byte l' -> length l' = length l -> of_bytes_le l' mod 256 ^ Z.of_nat (length l) = of_bytes_le l') as MS.
  { intros l' F L. apply Z.mod_small. rewrite <- L. now apply of_bytes_range. }
  rewrite (MS (map pc2 (map pc1 l))) by (auto; now rewrite !map_length).
  destruct (pc3_list l H) as (E3 & B3 & E4). cbv zeta in E3. rewrite E3.
  set (l3 := map (fun p => fst p + snd p) (combine (map pc2 (map pc1 l)) (sh4 (map pc2 (map pc1 l))))) in *.
  assert (length l3 = length l) as L3.
  { rewrite <- (map_length (fun b => Z.land (Z.shiftr b 0) 15) l3), E4. apply map_length. }
  rewrite MS by auto. rewrite <- L3. rewrite <- (Z.shiftr_0_r (of_bytes_le l3)).
  rewrite shift_mask by sm. now rewrite E4.
Qed.

Lemma filter_seq_shift (f : nat -> bool) n k :
  length (filter f (seq k n)) = length (filter (fun i => f (k + i)%nat) (seq 0 n)).
Proof.
  revert f k. induction n as [|n IH]; intros f k; [reflexivity|].
  assert (forall A (p q : A -> bool) l, (forall x, p x = q x) -> length (filter p l) = length (filter q l)) as FE.
  { intros A p q l E. induction l as [|x l IHl]; [reflexivity|]. cbn. rewrite E. destruct (q x); cbn; lia. }
  assert (length (filter f (seq (S k) n)) = length (filter (fun i => f (k + i)%nat) (seq 1 n))) as E.
  { rewrite (IH f (S k)), (IH (fun i => f (k + i)%nat) 1%nat). apply FE. intros; f_equal; lia. }
  cbn [seq filter]. replace (k + 0)%nat with k by lia. destruct (f k); cbn [length]; congruence.
Qed.

Lemma ones_cons n b t : byte b -> ones (8 + n) (b + 256 * t) = ones 8 b + ones n t.
Proof.
  intros Hb. unfold ones. rewrite seq_app, filter_app, app_length, Nat2Z.inj_add.
  rewrite (filter_seq_shift _ n). cbn [Nat.add].
  assert (forall (p q : nat -> bool) l, (forall x, In x l -> p x = q x) -> length (filter p l) = length (filter q l)) as FE.
  { intros p q l. induction l as [|x l IHl]; intros E; [reflexivity|]. cbn. rewrite E by (left; auto).
    specialize (IHl ltac:(intros; apply E; right; auto)). destruct (q x); cbn; lia. }
  f_equal; f_equal; apply FE; intros i Hi; apply in_seq in Hi; rewrite testbit_cons by (auto; lia).
  - destruct (Z.ltb_spec (Z.of_nat i) 8); [reflexivity|lia].
  - match goal with |- context [?a <? 8] => destruct (Z.ltb_spec a 8) end; [lia|]. f_equal. lia.
Qed.

Fixpoint zsum (l : list Z) : Z := match l with [] => 0 | x :: t => x + zsum t end.

Lemma ones_of_bytes l : Forall byte l ->
  ones (8 * length l) (of_bytes_le l) = zsum (map (ones 8) l).
Proof.
  intros H. induction H as [|b t Hb Ht IH]; [reflexivity|].
  cbn [length map zsum of_bytes_le]. replace (8 * S (length t))%nat with (8 + 8 * length t)%nat by lia.
  rewrite ones_cons by auto. now rewrite IH.
Qed.

Lemma ones_bound n v : 0 <= ones n v <= Z.of_nat n.
Proof.
  unfold ones. split; [lia|]. rewrite <- (seq_length n 0) at 2. apply inj_le.
  generalize (seq 0 n). intros l. induction l as [|x l IH]; cbn; [lia|]. destruct (Z.testbit _ _); cbn; lia.
Qed.

Lemma popcount32_ok v : 0 <= v < two32 -> popcount32 v = ones 32 v.
Proof.
  intros H. rewrite <- (of_bytes_bytes 4 v) by exact H.
  pose proof (bytes_le_range 4 v) as B. pose proof (bytes_le_length 4 v) as L.
  set (l := bytes_le 4 v) in *. clearbody l.
  change 32%nat with (8 * 4)%nat. rewrite <- L at 2.
  rewrite ones_of_bytes by exact B. unfold popcount32, u32.
  pose proof (pc_steps l two32 B ltac:(rewrite L; reflexivity)) as P. cbv zeta in P. rewrite L in P.
  change (of_bytes_le (repeat 0x55 4)) with 0x55555555 in P.
  change (of_bytes_le (repeat 0x33 4)) with 0x33333333 in P.
  change (of_bytes_le (repeat 0x0F 4)) with 0x0F0F0F0F in P.
  rewrite P. clear P.
  destruct l as [|b0 [|b1 [|b2 [|b3 [|]]]]]; try discriminate L.
  cbn [map of_bytes_le zsum].
  pose proof (ones_bound 8 b0). pose proof (ones_bound 8 b1). pose proof (ones_bound 8 b2). pose proof (ones_bound 8 b3).
  generalize dependent (ones 8 b0). generalize dependent (ones 8 b1). generalize dependent (ones 8 b2). generalize dependent (ones 8 b3).
  intros d Hd c Hc b Hb a Ha. change (Z.of_nat 8) with 8 in *.
  rewrite Z.shiftr_div_pow2 by lia. change (2 ^ 24) with 16777216.
  symmetry. 
  assert (((a + 256 * (b + 256 * (c + 256 * (d + 256 * 0)))) * 16843009) mod two32 =
     a + 256 * (a + b) + 65536 * (a + b + c) + 16777216 * (a + b + c + d)) as ->.
  { symmetry. unfold two32. apply Z.mod_unique with (b + c + d + 256 * (c + d) + 65536 * d); lia. }
  apply Z.div_unique with (a + 256 * (a + b) + 65536 * (a + b + c)); lia.
Qed.

Lemma popcount64_ok v : 0 <= v < two64 -> popcount64 v = ones 64 v.
Proof.
  intros H. rewrite <- (of_bytes_bytes 8 v) by exact H.
  pose proof (bytes_le_range 8 v) as B. pose proof (bytes_le_length 8 v) as L.
  set (l := bytes_le 8 v) in *. clearbody l.
  replace 64%nat with (8 * length l)%nat by (rewrite L; reflexivity).
  rewrite ones_of_bytes by exact B. unfold popcount64, u64.
  pose proof (pc_steps l two64 B ltac:(rewrite L; reflexivity)) as P. cbv zeta in P. rewrite L in P.
  change (of_bytes_le (repeat 0x55 8)) with 0x5555555555555555 in P.
  change (of_bytes_le (repeat 0x33 8)) with 0x3333333333333333 in P.
  change (of_bytes_le (repeat 0x0F 8)) with 0x0F0F0F0F0F0F0F0F in P.
  cbv zeta. rewrite P. clear P.
  destruct l as [|b0 [|b1 [|b2 [|b3 [|b4 [|b5 [|b6 [|b7 [|]]]]]]]]]; try discriminate L.
  cbn [map of_bytes_le zsum].
  pose proof (ones_bound 8 b0). pose proof (ones_bound 8 b1). pose proof (ones_bound 8 b2). pose proof (ones_bound 8 b3).
  pose proof (ones_bound 8 b4). pose proof (ones_bound 8 b5). pose proof (ones_bound 8 b6). pose proof (ones_bound 8 b7).
  generalize dependent (ones 8 b0). generalize dependent (ones 8 b1). generalize dependent (ones 8 b2). generalize dependent (ones 8 b3).
  generalize dependent (ones 8 b4). generalize dependent (ones 8 b5). generalize dependent (ones 8 b6). generalize dependent (ones 8 b7).
  intros h Hh g Hg f Hf e He d Hd c Hc b Hb a Ha. change (Z.of_nat 8) with 8 in *.
  rewrite Z.shiftr_div_pow2 by lia. change (2 ^ 56) with 72057594037927936.
  symmetry.
  match goal with |- _ = (?x mod two64) / _ =>
  assert (x mod two64 =
     a + 256 * (a + b) + 65536 * (a + b + c) + 16777216 * (a + b + c + d) + 4294967296 * (a + b + c + d + e)
     + 1099511627776 * (a + b + c + d + e + f) + 281474976710656 * (a + b + c + d + e + f + g)
     + 72057594037927936 * (a + b + c + d + e + f + g + h)) as -> end.
  { symmetry. unfold two64. apply Z.mod_unique with
     (b+c+d+e+f+g+h + 256 * (c+d+e+f+g+h) + 65536 * (d+e+f+g+h) + 16777216 * (e+f+g+h) + 4294967296 * (f+g+h) + 1099511627776 * (g + h) + 281474976710656 * h); lia. }
  apply Z.div_unique with (a + 256 * (a + b) + 65536 * (a + b + c) + 16777216 * (a + b + c + d) + 4294967296 * (a + b + c + d + e)
     + 1099511627776 * (a + b + c + d + e + f) + 281474976710656 * (a + b + c + d + e + f + g)); lia.
Qed.
