(** * Utf8BadProofs: reading bytes that are no UTF-8, and the stream iterators. *)
From Coq Require Import ZArith ZifyBool ZifyNat Lia.
From Verif Require Import Base UtilModel Utf8Model Utf8Spec Utf8Proofs StreamModel IsIterModel Utf8IterModel Utf8IterSpec Utf8IterProofs.
Local Open Scope Z_scope.

Lemma shl6_gen v b : 0 <= v -> v * 64 + 63 < 2 ^ 31 -> shl6 v b = Ok (v * 64 + b mod 64).
Proof.
  intros Hv H. pose proof (Z.mod_pos_bound b 64). pose proof (shl6_ok v (128 + b mod 64) Hv ltac:(lia)) as E. unfold push in E.
  replace (v * 64 + (128 + b mod 64 - 128)) with (v * 64 + b mod 64) in E by lia. rewrite <- E by lia. unfold shl6. rewrite !land63.
  replace ((128 + b mod 64) mod 64) with (b mod 64); [reflexivity|]. symmetry. rewrite <- Z.add_mod_idemp_l by lia. change (128 mod 64) with 0. rewrite Z.add_0_l. apply Z.mod_mod. lia.
Qed.
Lemma first_bits c : 0 <= c < 254 -> 0 <= Z.land c (Z.shiftr 255 (lead c)) /\ (Z.land c (Z.shiftr 255 (lead c)) + 1) * 64 ^ (lead c - 1) <= 2 ^ 31 /\ 1 <= lead c <= 6.
Proof.
  intros H. pose (P := fun c => (0 <=? Z.land c (Z.shiftr 255 (lead c))) && ((Z.land c (Z.shiftr 255 (lead c)) + 1) * 64 ^ (lead c - 1) <=? 2 ^ 31) && (1 <=? lead c) && (lead c <=? 6)).
  assert (B : P c = true) by (apply (all_below 254 P); [vm_compute; reflexivity|lia]). unfold P in B. lia.
Qed.
Lemma rd_in {A} (l : list A) i d : (i < length l)%nat -> rd l i = Ok (nth i l d).
Proof. intros H. unfold rd. rewrite (nth_error_nth' l d H). reflexivity. Qed.

Definition good_byte (b : Z) : Prop := 0 <= b < 254.

Section Bytes.
  Variable l : list Z.
  Hypothesis Hl : Forall good_byte l.
  Let buf := l ++ [0].
  Lemma buf_at i : (i <= length l)%nat -> exists b, rd buf i = Ok b /\ good_byte b /\ (b <> 0 -> (i < length l)%nat).
  Proof using Hl.
    intros H. unfold buf. destruct (Nat.eq_dec i (length l)) as [-> |N].
    - exists 0. split; [apply rd_at|]. unfold good_byte. split; lia.
    - exists (nth i l 0). rewrite (rd_in _ i 0) by (rewrite app_length; cbn [length]; lia). rewrite app_nth1 by lia. split; [reflexivity|].
      split; [|lia]. apply (proj1 (Forall_nth good_byte l) Hl i 0). lia.
  Qed.
  Lemma tail_safe n : forall i v, (i < length l)%nat \/ (n = O /\ (i <= length l)%nat) -> 0 <= v -> (v + 1) * 64 ^ Z.of_nat n <= 2 ^ 31 ->
    exists i' v', read_tail buf i v n = Ok (i', v') /\ (i <= i' <= length l)%nat /\ is_char v'.
  Proof using Hl.
    induction n as [|n IH]; intros i v Hi Hv Hb.
    - exists i, v. split; [reflexivity|]. split; [lia|]. unfold is_char. lia.
    - destruct Hi as [Hi|[? ?]]; [|discriminate]. destruct (buf_at (S i) ltac:(lia)) as (b & E & G & N). cbn [read_tail]. rewrite E. cbn [bind].
      assert (B : v * 64 + 63 < 2 ^ 31 /\ v < 2 ^ 31).
      { rewrite Nat2Z.inj_succ, Z.pow_succ_r in Hb by lia. assert (1 <= 64 ^ Z.of_nat n) by (apply (Z.pow_le_mono_r 64 0); lia). split; nia. }
      destruct (Z.eqb_spec b 0) as [Z0|Z0].
      + exists (S i), v. split; [reflexivity|]. split; [lia|]. unfold is_char. lia.
      + rewrite shl6_gen by lia. cbn [bind]. pose proof (Z.mod_pos_bound b 64 ltac:(lia)) as M.
        destruct (IH (S i) (v * 64 + b mod 64)) as (i' & v' & E' & R & C).
        * left. apply N, Z0. * lia.
        * rewrite Nat2Z.inj_succ, Z.pow_succ_r in Hb by lia. assert (1 <= 64 ^ Z.of_nat n) by (apply (Z.pow_le_mono_r 64 0); lia). nia.
        * exists i', v'. split; [exact E'|]. split; [lia|exact C].
  Qed.
  Lemma read_safe i : (i <= length l)%nat -> exists i' v, utf8_read buf i = Ok (i', v) /\ (i <= i' <= length l)%nat /\ is_char v.
  Proof using Hl.
    intros H. destruct (buf_at i H) as (c & E & G & N). unfold utf8_read. rewrite E. cbn [bind]. unfold good_byte in G. rewrite seq_bytes_lead by lia. cbn [bind].
    destruct (first_bits c G) as (F1 & F2 & F3). apply tail_safe; [|exact F1|].
    - destruct (Z.eq_dec c 0) as [-> |Z0]; [right; split; [reflexivity|exact H]|left; apply N, Z0].
    - replace (Z.of_nat (Z.to_nat (lead c - 1))) with (lead c - 1) by lia. exact F2.
  Qed.
  Lemma copy_safe f : forall it, (fst it <= length l)%nat -> is_char (snd it) -> (length l - fst it < f)%nat ->
    exists vs, utf8_copy buf it (length l) f = Ok vs /\ Forall is_char vs /\ (length vs <= length l - fst it)%nat.
  Proof using Hl.
    induction f as [|f IH]; intros it Hi Hc Hf; [lia|]. cbn [utf8_copy]. destruct (Nat.eqb_spec (fst it) (length l)) as [E|E].
    - exists []. split; [reflexivity|]. split; [constructor|cbn; lia].
    - unfold utf8_next. destruct (read_safe (S (fst it)) ltac:(lia)) as (i' & v & E' & R & C). rewrite E'. cbn [bind].
      destruct (IH (i', v)) as (vs & Ev & Fv & Lv); cbn [fst snd] in *; [lia|exact C|lia|]. rewrite Ev. cbn [bind]. exists (snd it :: vs).
      split; [reflexivity|]. split; [constructor; assumption|cbn [length]; lia].
  Qed.
  Lemma dist_safe f : forall i, (i <= length l + 8)%nat -> (length l - i < f)%nat ->
    exists d, utf8_dist buf i (length l) f = Ok d /\ 0 <= d <= Z.of_nat (length l - i).
  Proof using Hl.
    induction f as [|f IH]; intros i Hi Hf; [lia|]. cbn [utf8_dist]. destruct (Nat.ltb_spec i (length l)) as [L|L].
    - destruct (buf_at i ltac:(lia)) as (c & E & G & N). rewrite E. cbn [bind]. unfold good_byte in G. rewrite seq_bytes_lead by lia. cbn [bind].
      destruct (first_bits c G) as (_ & _ & F3). destruct (IH (i + Z.to_nat (lead c))%nat ltac:(lia) ltac:(lia)) as (d & Ed & Bd). rewrite Ed. cbn [bind].
      exists (d + 1). split; [reflexivity|lia].
    - exists 0. split; [reflexivity|lia].
  Qed.
End Bytes.
Lemma in_all_safe l : Forall good_byte l -> exists vs n, utf8_in_all l = Ok vs /\ Forall is_char vs /\ (length vs <= length l)%nat /\ str_length l = Ok n /\ 0 <= n <= Z.of_nat (length l).
Proof.
  intros H. destruct (read_safe l H 0 ltac:(lia)) as (i & v & E & R & C).
  destruct (copy_safe l H (S (length l)) (i, v)) as (vs & Ev & Fv & Lv); cbn [fst snd]; [lia|exact C|lia|].
  destruct (dist_safe l H (S (length l)) i) as (n & En & Bn); [lia|lia|].
  exists vs, n. unfold utf8_in_all, str_length. rewrite E, utf8_read_end. cbn [bind fst]. cbn [fst] in Lv.
  split; [exact Ev|]. split; [exact Fv|]. split; [lia|]. split; [exact En|lia].
Qed.

(** ** Characters and stray bytes *)
Lemma item_read pre x post : item_ok x -> utf8_read (pre ++ item_bytes x ++ post) (length pre) = Ok ((length pre + length (item_bytes x) - 1)%nat, item_char x).
Proof.
  destruct x as [v|b]; cbn [item_ok item_bytes item_char]; intros H; [apply utf8_read_ok, H|].
  unfold utf8_read. cbn [app]. rewrite rd_at. cbn [bind]. rewrite seq_bytes_lead by lia. unfold lead. replace (b <? 192) with true by lia. cbn [bind length]. change (Z.to_nat (1 - 1)) with O. cbn [read_tail].
  do 2 f_equal; [lia|]. change (Z.shiftr 255 1) with (Z.ones 7). rewrite Z.land_ones by lia. symmetry. apply (Z.mod_unique _ _ 1); lia.
Qed.
Lemma item_pos x : item_ok x -> (0 < length (item_bytes x))%nat.
Proof. destruct x; cbn [item_ok item_bytes]; intros H; [apply encode_pos, H|cbn; lia]. Qed.
(** The copy up to a given position, with anything that may be read there. *)
Lemma items_copy xs : Forall item_ok xs -> forall pre post stop k it f, utf8_read (pre ++ concat (map item_bytes xs) ++ post) (length pre) = Ok it ->
  (forall pre', (length pre' = length pre + length (concat (map item_bytes xs)))%nat -> exists v, utf8_read (pre' ++ post) (length pre') = Ok ((length pre' + k)%nat, v)) ->
  stop = (length pre + length (concat (map item_bytes xs)) + k)%nat -> (length xs < f)%nat ->
  utf8_copy (pre ++ concat (map item_bytes xs) ++ post) it stop f = Ok (map item_char xs).
Proof.
  induction 1 as [|x xs Hx H IH]; intros pre post stop k it f E HP Hs Hf; (destruct f as [|f]; [cbn in Hf; lia|]).
  - cbn [map concat app length] in *. rewrite Nat.add_0_r in *. destruct (HP pre ltac:(lia)) as (v & Ev). rewrite E in Ev. injection Ev as ->. cbn [utf8_copy fst].
    rewrite Hs, Nat.eqb_refl. reflexivity.
  - cbn [map concat] in *. rewrite <- app_assoc in *. rewrite item_read in E by exact Hx. injection E as <-. cbn [utf8_copy fst snd]. pose proof (item_pos x Hx) as Px.
    rewrite app_length in Hs. replace (Nat.eqb _ _) with false by (symmetry; apply Nat.eqb_neq; lia). unfold utf8_next. cbn [fst].
    replace (S (length pre + length (item_bytes x) - 1)) with (length (pre ++ item_bytes x)) by (rewrite app_length; lia). rewrite (app_assoc pre).
    assert (HP' : forall pre', (length pre' = length (pre ++ item_bytes x) + length (concat (map item_bytes xs)))%nat -> exists v, utf8_read (pre' ++ post) (length pre') = Ok ((length pre' + k)%nat, v)).
    { intros p Hp. apply HP. rewrite app_length in *. lia. }
    assert (Ex : exists it', utf8_read ((pre ++ item_bytes x) ++ concat (map item_bytes xs) ++ post) (length (pre ++ item_bytes x)) = Ok it').
    { destruct H as [|y ys Hy Hys]; cbn [map concat app]; [destruct (HP' (pre ++ item_bytes x)) as (v & Ev); [cbn [map concat length]; lia|]; eauto|]. rewrite <- (app_assoc (item_bytes y)). rewrite item_read by exact Hy. eauto. }
    destruct Ex as (it' & Ex). rewrite Ex. cbn [bind]. rewrite (IH _ post stop k it' f Ex HP'); [reflexivity| |cbn [length] in Hf; lia]. rewrite app_length. lia.
Qed.
Lemma items_length xs : Forall item_ok xs -> (length xs <= length (concat (map item_bytes xs)))%nat.
Proof. induction 1 as [|x xs Hx H IH]; [cbn; lia|]. cbn [map concat length]. rewrite app_length. pose proof (item_pos x Hx). lia. Qed.
Lemma items_all xs : Forall item_ok xs -> utf8_in_all (concat (map item_bytes xs)) = Ok (map item_char xs).
Proof.
  intros H. unfold utf8_in_all. assert (Ex : exists it, utf8_read (concat (map item_bytes xs) ++ [0]) 0 = Ok it).
  { destruct H as [|y ys Hy Hys]; cbn [map concat app]; [eexists; apply (utf8_read_end [])|]. rewrite <- (app_assoc (item_bytes y)). eexists. apply (item_read [] y _ Hy). }
  destruct Ex as (it & Ex). rewrite Ex. cbn [bind]. rewrite utf8_read_end. cbn [bind fst].
  apply (items_copy xs H [] [0] _ 0); [exact Ex| |cbn [length]; lia|pose proof (items_length xs H); lia].
  intros p _. exists 0. rewrite Nat.add_0_r. apply utf8_read_end.
Qed.
(** A truncated character at the end: the iterator goes straight to the end. *)
Lemma tail_trunc cs : Forall (fun b => 0 < b < 256) cs -> forall pre x v n, (length cs < n)%nat -> 0 <= v -> (v + 1) * 64 ^ Z.of_nat n <= 2 ^ 31 ->
  exists v', read_tail (pre ++ x :: cs ++ [0]) (length pre) v n = Ok ((length pre + S (length cs))%nat, v').
Proof.
  induction 1 as [|b t Hb H IH]; intros pre x v n Hn Hv HB; (destruct n as [|n]; [cbn in Hn; lia|]); cbn [read_tail app].
  - rewrite rd_at1. cbn [bind]. exists v. cbn [Z.eqb length]. do 2 f_equal. lia.
  - rewrite rd_at1. cbn [bind]. replace (b =? 0) with false by lia. rewrite Nat2Z.inj_succ, Z.pow_succ_r in HB by lia.
    assert (1 <= 64 ^ Z.of_nat n) by (apply (Z.pow_le_mono_r 64 0); lia). rewrite shl6_gen by nia. cbn [bind].
    pose proof (Z.mod_pos_bound b 64 ltac:(lia)).
    destruct (IH (pre ++ [x]) b (v * 64 + b mod 64) n) as (v' & E'); [cbn [length] in Hn; lia|lia|nia|].
    rewrite <- app_assoc in E'. cbn [app] in E'. rewrite app_length in E'. cbn [length] in E'. replace (length pre + 1)%nat with (S (length pre)) in E' by lia. rewrite E'.
    exists v'. cbn [length]. do 2 f_equal. lia.
Qed.
Lemma trunc_all xs v k : Forall item_ok xs -> is_char v -> (0 < k < length (encode v))%nat ->
  utf8_in_all (concat (map item_bytes xs) ++ firstn k (encode v)) = Ok (map item_char xs).
Proof.
  intros H Hv Hk. set (t := firstn k (encode v)). set (D := concat (map item_bytes xs)).
  assert (T : exists c cs, t = c :: cs /\ good_byte c /\ lead c = Z.of_nat (length (encode v)) /\ Forall (fun b => 0 < b < 256) cs /\ length cs = (k - 1)%nat).
  { pose proof (parts_ok v Hv) as P. destruct (parts v) as [[c cs] x]. destruct P as (E & C & L & _ & _ & Fc & _). unfold t. rewrite E. destruct k as [|k]; [lia|].
    exists c, (firstn k cs). split; [reflexivity|]. split; [|split; [rewrite L; reflexivity|split]].
    - unfold good_byte. split; [lia|]. unfold lead in L. pose proof (encode_length v Hv) as Q. rewrite E in Q. cbn [length] in Q. pose proof (Z.log2_nonneg v).
      destruct (Z.ltb_spec c 254); [assumption|]. exfalso. unfold len_of, is_char in *. repeat match goal with H : context [if ?c then _ else _] |- _ => destruct c eqn:? end; lia.
    - rewrite E in Hk. cbn [length] in Hk. apply (Forall_impl (P := fun b => 128 <= b < 192)); [lia|]. rewrite <- (firstn_skipn k cs) in Fc. apply Forall_app in Fc. apply Fc.
    - rewrite E in Hk. cbn [length] in Hk. rewrite firstn_length. lia. }
  destruct T as (c & cs & Et & Hc & Lc & Fcs & Lcs). clearbody t. subst t.
  assert (R : forall pre, exists w, utf8_read (pre ++ (c :: cs) ++ [0]) (length pre) = Ok ((length pre + S (length cs))%nat, w)).
  { intros pre. unfold utf8_read. cbn [app]. rewrite rd_at. cbn [bind]. rewrite seq_bytes_lead by (unfold good_byte in Hc; lia). cbn [bind].
    destruct (first_bits c Hc) as (F1 & F2 & F3). apply tail_trunc; [exact Fcs|rewrite Lc; lia|exact F1|].
    replace (Z.of_nat (Z.to_nat (lead c - 1))) with (lead c - 1) by lia. exact F2. }
  unfold utf8_in_all. rewrite utf8_read_end. cbn [bind fst].
  assert (Ex : exists it, utf8_read ((D ++ c :: cs) ++ [0]) 0 = Ok it).
  { unfold D. rewrite <- app_assoc. destruct H as [|y ys Hy Hys]; cbn [map concat app]; [destruct (R []) as (w & Ew); eauto|]. rewrite <- (app_assoc (item_bytes y)). eexists. apply (item_read [] y _ Hy). }
  destruct Ex as (it & Ex). rewrite Ex. cbn [bind]. rewrite <- app_assoc in *.
  apply (items_copy xs H [] ((c :: cs) ++ [0]) _ (S (length cs))); [exact Ex| | |].
  - intros p _. apply R.
  - fold D. rewrite app_length. cbn [length]. lia.
  - pose proof (items_length xs H). fold D in H0. rewrite app_length. cbn [length]. lia.
Qed.

(** ** FE and FF *)
Lemma fe_read c b1 b2 b3 b4 b5 b6 pre post : 254 <= c < 256 -> Forall (fun b => 0 < b < 256) [b1; b2; b3; b4; b5; b6] -> 4 <= b1 mod 64 ->
  utf8_read (pre ++ c :: [b1; b2; b3; b4; b5; b6] ++ post) (length pre) = UB.
Proof.
  intros Hc HF H1. assert (Hb : forall b, In b [b1; b2; b3; b4; b5; b6] -> b <> 0) by (intros b Hb; rewrite Forall_forall in HF; specialize (HF b Hb); lia).
  unfold utf8_read. cbn [app]. rewrite rd_at. cbn [bind].
  assert (Q : exists k, seq_bytes c = Ok (Z.of_nat (7 + k)) /\ Z.land c (Z.shiftr 255 (Z.of_nat (7 + k))) = 0).
  { assert (c = 254 \/ c = 255) as [-> | ->] by lia; [exists 0%nat|exists 1%nat]; vm_compute; split; reflexivity. }
  destruct Q as (k & -> & Q). cbn [bind]. rewrite Q. replace (Z.to_nat (Z.of_nat (7 + k) - 1)) with (S (S (S (S (S (S k)))))) by lia.
  assert (St : forall a i (pre : list Z) b post v n, rd (pre ++ a :: b :: post) (S i) = Ok b -> b <> 0 -> read_tail (pre ++ a :: b :: post) i v (S n) = (v' <- shl6 v b ;; read_tail (pre ++ a :: b :: post) (S i) v' n)).
  { clear. intros a i pre b post v n E Hb. cbn [read_tail]. rewrite E. cbn [bind]. replace (b =? 0) with false by lia. reflexivity. }
  set (L := length pre).
  assert (R : forall j b, nth_error [c; b1; b2; b3; b4; b5; b6] j = Some b -> rd (pre ++ c :: b1 :: b2 :: b3 :: b4 :: b5 :: b6 :: post) (j + L) = Ok b).
  { intros j b E. unfold rd. rewrite nth_error_app2 by (unfold L; lia). replace (j + L - length pre)%nat with j by (unfold L; lia).
    do 7 (destruct j as [|j]; [cbn [nth_error] in *; injection E as <-; reflexivity|]). destruct j; discriminate. }
  pose proof (fun b => Z.mod_pos_bound b 64 ltac:(lia)) as M. pose proof (M b1). pose proof (M b2). pose proof (M b3). pose proof (M b4). pose proof (M b5).
  assert (Bad : forall v b, 2 ^ 26 <= v -> shl6 v b = UB) by (intros v b Hv; unfold shl6; replace (2 ^ 32 <=? v * 64) with true by lia; rewrite orb_true_r; reflexivity).
  rewrite (St c L pre b1) by (try apply (R 1%nat b1 eq_refl); apply Hb; cbn; tauto). rewrite shl6_gen by lia. cbn [bind].
  assert (St2 : forall j b v n, nth_error [c; b1; b2; b3; b4; b5; b6] (S j) = Some b -> b <> 0 ->
    read_tail (pre ++ c :: b1 :: b2 :: b3 :: b4 :: b5 :: b6 :: post) (j + L) v (S n) = (v' <- shl6 v b ;; read_tail (pre ++ c :: b1 :: b2 :: b3 :: b4 :: b5 :: b6 :: post) (S j + L) v' n)).
  { intros j b v n E N. cbn [read_tail]. change (S (j + L)) with (S j + L)%nat. rewrite (R (S j) b E). cbn [bind]. replace (b =? 0) with false by lia. reflexivity. }
  change (S L) with (1 + L)%nat.
  rewrite (St2 1%nat b2) by (try reflexivity; apply Hb; cbn; tauto). rewrite shl6_gen by lia. cbn [bind].
  rewrite (St2 2%nat b3) by (try reflexivity; apply Hb; cbn; tauto). rewrite shl6_gen by lia. cbn [bind].
  rewrite (St2 3%nat b4) by (try reflexivity; apply Hb; cbn; tauto). rewrite shl6_gen by lia. cbn [bind].
  rewrite (St2 4%nat b5) by (try reflexivity; apply Hb; cbn; tauto). rewrite shl6_gen by lia. cbn [bind].
  rewrite (St2 5%nat b6) by (try reflexivity; apply Hb; cbn; tauto). rewrite Bad by lia. reflexivity.
Qed.
Lemma copy_ub xs post stop : Forall item_ok xs -> forall pre it f, utf8_read (pre ++ concat (map item_bytes xs) ++ post) (length pre) = Ok it -> xs <> [] ->
  (forall pre', utf8_read (pre' ++ post) (length pre') = UB) -> (length pre + length (concat (map item_bytes xs)) <= stop)%nat -> (length xs <= f)%nat ->
  utf8_copy (pre ++ concat (map item_bytes xs) ++ post) it stop f = UB.
Proof.
  induction 1 as [|x xs Hx H IH]; intros pre it f E Hne HP Hs Hf; [congruence|]. destruct f as [|f]; [cbn in Hf; lia|]. clear Hne.
  cbn [map concat] in *. rewrite <- app_assoc in *. rewrite item_read in E by exact Hx. injection E as <-. cbn [utf8_copy fst snd]. pose proof (item_pos x Hx) as Px.
  rewrite app_length in Hs. replace (Nat.eqb _ _) with false by (symmetry; apply Nat.eqb_neq; lia). unfold utf8_next. cbn [fst].
  replace (S (length pre + length (item_bytes x) - 1)) with (length (pre ++ item_bytes x)) by (rewrite app_length; lia). rewrite (app_assoc pre).
  destruct xs as [|y ys].
  - cbn [map concat app]. rewrite HP. reflexivity.
  - assert (Ex : exists it', utf8_read ((pre ++ item_bytes x) ++ concat (map item_bytes (y :: ys)) ++ post) (length (pre ++ item_bytes x)) = Ok it').
    { cbn [map concat]. rewrite <- (app_assoc (item_bytes y)). inversion H; subst. rewrite item_read by assumption. eauto. }
    destruct Ex as (it' & Ex). rewrite Ex. cbn [bind]. rewrite (IH _ it' f Ex); [reflexivity|discriminate|exact HP|rewrite app_length; lia|cbn [length] in *; lia].
Qed.
Lemma fe_all xs c b1 b2 b3 b4 b5 b6 rest : Forall item_ok xs -> 254 <= c < 256 -> Forall (fun b => 0 < b < 256) [b1; b2; b3; b4; b5; b6] -> 4 <= b1 mod 64 ->
  utf8_in_all (concat (map item_bytes xs) ++ c :: [b1; b2; b3; b4; b5; b6] ++ rest) = UB.
Proof.
  intros H Hc HF H1. unfold utf8_in_all. set (bad := c :: [b1; b2; b3; b4; b5; b6] ++ rest).
  assert (R : forall pre, utf8_read (pre ++ bad ++ [0]) (length pre) = UB).
  { intros pre. unfold bad. rewrite <- app_comm_cons, <- app_assoc. apply fe_read; assumption. }
  rewrite utf8_read_end. rewrite <- app_assoc. destruct xs as [|y ys]; [pose proof (R []) as R0; cbn [map concat app length] in *; rewrite R0; reflexivity|].
  assert (Ex : exists it, utf8_read (concat (map item_bytes (y :: ys)) ++ bad ++ [0]) 0 = Ok it).
  { cbn [map concat]. rewrite <- (app_assoc (item_bytes y)). inversion H; subst. eexists. apply (item_read [] y). assumption. }
  destruct Ex as (it & Ex). rewrite Ex. cbn [bind fst]. apply (copy_ub (y :: ys) (bad ++ [0]) _ H [] it); [exact Ex|discriminate|exact R|rewrite app_length; cbn [length]; lia|].
  pose proof (items_length _ H). rewrite app_length. lia.
Qed.

(** ** Streams *)
Lemma u64_small x : 0 <= x < 2 ^ 64 -> u64 x = x.
Proof. intros H. unfold u64. change two64 with (2 ^ 64). apply Z.mod_small, H. Qed.

Lemma last_cons {A} (a : A) l d : last (a :: l) d = last l a.
Proof. revert a d. induction l as [|b l IH]; intros a d; [reflexivity|]. change (last (a :: b :: l) d) with (last (b :: l) d). rewrite !IH. reflexivity. Qed.
Section Input.
  Variables (dbg : bool) (data : list Z) (st e : Z).
  Hypothesis Hlen : Z.of_nat (length data) < 2 ^ 62.
  Let at_ (p : nat) : istream := mkis data (Z.of_nat p) st e.
  Lemma byte_read p b old : nth_error data p = Some b -> 0 <= b < 256 ->
    bi_Read dbg 1 (mkiter true old) (at_ p) = Ok (at_ (S p), Val (mkiter true b)).
  Proof using Hlen.
    intros E Hb. assert (L : (p < length data)%nat) by (apply nth_error_Some; congruence).
    assert (R : i_remaining (at_ p) = Z.of_nat (length data) - Z.of_nat p).
    { unfold i_remaining, isize, at_. cbn [idata ipos]. apply u64_small. lia. }
    unfold bi_Read, it_Read. cbn [it_live it_val]. unfold iobind at 1. change (Z.of_nat 1) with 1. rewrite R. replace (_ <? 1) with false by lia. cbn [bind].
    unfold b_extract, iread, i_read, i_verify. change (Z.of_nat 1) with 1. unfold iobind at 1 2 3. cbv beta.
    assert (D : dbg && negb (ipos (at_ p) mod 1 =? 0) = false) by (rewrite Z.mod_1_r; apply andb_false_r). rewrite D.
    unfold iobind at 1. rewrite R. replace (1 <=? _) with true by lia. cbn [bind]. unfold iobind at 1. unfold i_raw. replace (1 =? 0) with false by reflexivity.
    change (ipos (at_ p)) with (Z.of_nat p). change (isize (at_ p)) with (Z.of_nat (length data)).
    replace ((0 <=? Z.of_nat p) && (0 <=? 1) && (Z.of_nat p + 1 <=? Z.of_nat (length data))) with true by lia. cbn [bind].
    unfold iobind at 1. unfold i_set_pos. change (ipos (at_ p)) with (Z.of_nat p). rewrite u64_small by lia. cbn [bind]. unfold ret. cbn [bind].
    assert (Sl : slice (idata (at_ p)) (Z.to_nat (Z.of_nat p)) (Z.to_nat (Z.of_nat p + 1)) = [b]).
    { change (idata (at_ p)) with data. rewrite Nat2Z.id. replace (Z.to_nat (Z.of_nat p + 1)) with (S p) by lia. unfold slice.
      destruct (nth_error_split data p E) as (l1 & l2 & -> & <-). replace (S (length l1) - length l1)%nat with 1%nat by lia. rewrite skipn_app, skipn_all, Nat.sub_diag. reflexivity. }
    rewrite Sl. unfold at_. cbn [idata istate iexc of_bytes_le negb]. replace (Z.of_nat (S p)) with (Z.of_nat p + 1) by lia. do 4 f_equal. lia.
  Qed.
  Lemma byte_end old : Z.land e 6 = 0 -> exists s', bi_Read dbg 1 (mkiter true old) (at_ (length data)) = Ok (s', Val (mkiter false old)).
  Proof using Hlen.
    intros He. assert (R : i_remaining (at_ (length data)) = 0).
    { unfold i_remaining, isize, at_. cbn [idata ipos]. rewrite Z.sub_diag. reflexivity. }
    unfold bi_Read, it_Read. cbn [it_live it_val]. unfold iobind at 1. change (Z.of_nat 1) with 1. rewrite R. cbn [Z.ltb Z.compare].
    unfold i_underflow, iobind, i_verify. rewrite R. cbn [Z.leb Z.compare]. unfold iobind, i_overrun. change (overrun_bits 0) with 6. change (iexc (at_ (length data))) with e. rewrite He.
    cbn [Z.eqb bind]. unfold ret. cbn [bind]. change (i_remaining (mkis _ (ipos (at_ (length data))) _ _)) with (i_remaining (at_ (length data))). rewrite R. eexists. reflexivity.
  Qed.
  (** A whole character. *)
  Lemma us_tail_ok cs : Forall (fun b => 128 <= b < 192) cs -> forall p c v, (forall k b, nth_error cs k = Some b -> nth_error data (p + k) = Some b) -> 0 <= v -> fold_left push cs v < 2 ^ 31 ->
    us_tail dbg (length cs) (mkiter true c) v (at_ p) = Ok (at_ (p + length cs), Val (mkiter true (last cs c), fold_left push cs v)).
  Proof using Hlen.
    induction 1 as [|b t Hb H IH]; intros p c v Hd Hv Hf.
    - cbn [length us_tail fold_left last]. rewrite Nat.add_0_r. reflexivity.
    - cbn [length us_tail]. unfold iobind at 1. rewrite (byte_read p b) by (try lia; pose proof (Hd 0%nat b eq_refl) as Q; rewrite Nat.add_0_r in Q; exact Q). cbn [bind it_val].
      replace (b =? 0) with false by lia. cbn [fold_left] in *. assert (0 <= push v b) by (unfold push; lia). pose proof (push_mono t H (push v b) ltac:(lia)).
      rewrite shl6_ok by lia. unfold iobind at 1. cbn [lift bind]. rewrite IH by (try assumption; intros k y Ek; specialize (Hd (S k) y Ek); replace (S p + k)%nat with (p + S k)%nat by lia; exact Hd).
      replace (S p + length t)%nat with (p + S (length t))%nat by lia. rewrite last_cons. reflexivity.
  Qed.
  Lemma us_char pre v post old : data = pre ++ encode v ++ post -> is_char v ->
    (i <~ bi_Read dbg 1 (mkiter true old) ;; us_Read dbg i) (at_ (length pre)) = Ok (at_ (length pre + length (encode v)), Val (mkiter true (last (encode v) 0), v)).
  Proof using Hlen.
    intros Ed Hv. pose proof (parts_ok v Hv) as P. destruct (parts v) as [[c cs] x]. destruct P as (E & C & L & X & X0 & Fc & Fv).
    unfold iobind at 1. rewrite (byte_read (length pre) c old) by (try lia; rewrite Ed, E; cbn [app]; rewrite nth_error_app2, Nat.sub_diag by lia; reflexivity). cbn [bind].
    unfold us_Read. cbn [it_val]. rewrite seq_bytes_lead by exact C. unfold iobind at 1. cbn [lift bind]. rewrite X. rewrite L. replace (Z.to_nat (Z.of_nat (S (length cs)) - 1)) with (length cs) by lia.
    rewrite us_tail_ok; [|exact Fc| |exact X0|rewrite Fv; unfold is_char in Hv; lia].
    - rewrite Fv, E. cbn [length]. replace (S (length pre) + length cs)%nat with (length pre + S (length cs))%nat by lia. rewrite last_cons. reflexivity.
    - intros k b Ek. rewrite Ed, E. rewrite nth_error_app2 by lia. replace (S (length pre) + k - length pre)%nat with (S k) by lia. cbn [app nth_error]. rewrite nth_error_app1; [exact Ek|]. apply nth_error_Some. congruence.
  Qed.
  (** A character cut short by a zero byte. *)
  Lemma us_tail_cut cs : Forall (fun b => 128 <= b < 192) cs -> forall n p c v, (length cs < n)%nat ->
    (forall k b, nth_error (cs ++ [0]) k = Some b -> nth_error data (p + k) = Some b) -> 0 <= v -> fold_left push cs v < 2 ^ 31 ->
    us_tail dbg n (mkiter true c) v (at_ p) = Ok (at_ (p + S (length cs)), Val (mkiter true 0, fold_left push cs v)).
  Proof using Hlen.
    induction 1 as [|b t Hb H IH]; intros n p c v Hn Hd Hv Hf; (destruct n as [|n]; [cbn [length] in Hn; lia|]).
    - cbn [us_tail]. unfold iobind at 1. rewrite (byte_read p 0) by (try lia; pose proof (Hd 0%nat 0 eq_refl) as Q; rewrite Nat.add_0_r in Q; exact Q). cbn [bind it_val length fold_left].
      cbn [Z.eqb]. unfold ret. rewrite Nat.add_1_r. reflexivity.
    - cbn [us_tail]. unfold iobind at 1. rewrite (byte_read p b) by (try lia; pose proof (Hd 0%nat b eq_refl) as Q; rewrite Nat.add_0_r in Q; exact Q). cbn [bind it_val].
      replace (b =? 0) with false by lia. cbn [fold_left] in *. assert (0 <= push v b) by (unfold push; lia). pose proof (push_mono t H (push v b) ltac:(lia)).
      rewrite shl6_ok by lia. unfold iobind at 1. cbn [lift bind]. rewrite IH; [|cbn [length] in Hn; lia| |assumption|assumption].
      + cbn [length]. replace (S p + S (length t))%nat with (p + S (S (length t)))%nat by lia. reflexivity.
      + intros k y Ek. specialize (Hd (S k) y Ek). replace (S p + k)%nat with (p + S k)%nat by lia. exact Hd.
  Qed.
  Lemma push_div cs : Forall (fun b => 128 <= b < 192) cs -> forall v, 0 <= v -> fold_left push cs v / 64 ^ Z.of_nat (length cs) = v.
  Proof.
    induction cs as [|b t IH] using rev_ind; intros F v Hv; [cbn [fold_left length]; apply Z.div_1_r|].
    apply Forall_app in F as [F1 F2]. inversion F2 as [|? ? Hb _]; subst. rewrite fold_left_app. cbn [fold_left]. rewrite app_length. cbn [length].
    rewrite Nat.add_1_r, Nat2Z.inj_succ, Z.pow_succ_r by lia. rewrite <- Z.div_div by (try lia; apply Z.pow_pos_nonneg; lia).
    unfold push at 1. replace ((fold_left push t v * 64 + (b - 128)) / 64) with (fold_left push t v); [now apply IH|].
    rewrite Z.div_add_l by lia. rewrite (Z.div_small (b - 128)) by lia. lia.
  Qed.
  Lemma us_cut pre v k post old : data = pre ++ firstn k (encode v) ++ 0 :: post -> is_char v -> (0 < k < length (encode v))%nat ->
    (i <~ bi_Read dbg 1 (mkiter true old) ;; us_Read dbg i) (at_ (length pre)) =
    Ok (at_ (length pre + k + 1), Val (mkiter true 0, v / 64 ^ Z.of_nat (length (encode v) - k))).
  Proof using Hlen.
    intros Ed Hv Hk. pose proof (parts_ok v Hv) as P. destruct (parts v) as [[c cs] x]. destruct P as (E & C & L & X & X0 & Fc & Fv).
    destruct k as [|k]; [lia|]. rewrite E in Ed. cbn [firstn app] in Ed. rewrite E in Hk. cbn [length] in Hk.
    unfold iobind at 1. rewrite (byte_read (length pre) c old) by (try lia; rewrite Ed; rewrite nth_error_app2, Nat.sub_diag by lia; reflexivity). cbn [bind].
    unfold us_Read. cbn [it_val]. rewrite seq_bytes_lead by exact C. unfold iobind at 1. cbn [lift bind]. rewrite X. rewrite L. replace (Z.to_nat (Z.of_nat (S (length cs)) - 1)) with (length cs) by lia.
    assert (Fs : Forall (fun b => 128 <= b < 192) (firstn k cs) /\ Forall (fun b => 128 <= b < 192) (skipn k cs)) by (rewrite <- (firstn_skipn k cs) in Fc; now apply Forall_app in Fc).
    destruct Fs as [F1 F2]. assert (V : fold_left push (skipn k cs) (fold_left push (firstn k cs) x) = v) by (rewrite <- fold_left_app, firstn_skipn; exact Fv).
    assert (Lk : length (firstn k cs) = k) by (rewrite firstn_length; lia).
    pose proof (push_mono _ F1 x X0) as M1. pose proof (push_mono _ F2 (fold_left push (firstn k cs) x) ltac:(lia)) as M2.
    rewrite (us_tail_cut (firstn k cs)); [|exact F1|lia| |exact X0|rewrite V in M2; unfold is_char in Hv; lia].
    - rewrite Lk. replace (S (length pre) + S k)%nat with (length pre + S k + 1)%nat by lia. do 4 f_equal.
      rewrite <- V at 1. rewrite E. cbn [length]. replace (S (length cs) - S k)%nat with (length (skipn k cs)) by (rewrite skipn_length; lia).
      rewrite push_div by (try assumption; lia). reflexivity.
    - intros j b Ej. rewrite Ed. rewrite nth_error_app2 by lia. replace (S (length pre) + j - length pre)%nat with (S j) by lia. cbn [nth_error].
      change (0 :: post) with ([0] ++ post). rewrite app_assoc. rewrite nth_error_app1; [exact Ej|]. apply nth_error_Some. congruence.
  Qed.
  (** From an iterator at a character on. *)
  Lemma us_skip_ok : forall l pre v post, data = pre ++ encode v ++ encode_all l ++ post -> is_char v -> Forall is_char l ->
    us_skip dbg (length l) (mkiter true (last (encode v) 0), v) (at_ (length pre + length (encode v))) =
    Ok (at_ (length pre + length (encode v) + length (encode_all l)), Val (mkiter true (last (encode (last l v)) 0), last l v)).
  Proof using Hlen.
    induction l as [|x l IH]; intros pre v post Ed Hv Hl.
    - cbn [length us_skip last]. change (encode_all []) with (@nil Z). cbn [length]. rewrite Nat.add_0_r. reflexivity.
    - inversion Hl as [|? ? Hx Hl']; subst x0 l0. cbn [length us_skip]. unfold us_next at 1. cbn [fst].
      change (encode_all (x :: l)) with (encode x ++ encode_all l) in *. rewrite <- app_assoc in Ed.
      assert (Q := us_char (pre ++ encode v) x (encode_all l ++ post) (last (encode v) 0) ltac:(rewrite <- app_assoc; exact Ed) Hx). rewrite app_length in Q.
      unfold iobind at 1. rewrite Q. cbn [bind]. rewrite <- app_length. rewrite (IH (pre ++ encode v) x post) by (try assumption; rewrite <- app_assoc; exact Ed).
      rewrite !app_length. rewrite !Nat.add_assoc. rewrite (last_cons x l v). reflexivity.
  Qed.
  Lemma us_copy_ok : Z.land e 6 = 0 -> forall l pre v f lst, data = pre ++ encode v ++ encode_all l -> is_char v -> Forall is_char l -> (length l + 1 < f)%nat -> it_live (fst lst) = false ->
    exists s', us_copy dbg f (mkiter true (last (encode v) 0), v) lst (at_ (length pre + length (encode v))) = Ok (s', Val (v :: l)).
  Proof using Hlen.
    intros He. induction l as [|x l IH]; intros pre v f lst Ed Hv Hl Hf Hlst; (destruct f as [|f]; [lia|]); cbn [us_copy fst snd]; unfold it_eq; cbn [it_live]; rewrite Hlst; cbn [negb andb orb].
    - change (encode_all []) with (@nil Z) in Ed. rewrite app_nil_r in Ed. replace (length pre + length (encode v))%nat with (length data) by (rewrite Ed, app_length; reflexivity).
      destruct (byte_end (last (encode v) 0) He) as (s' & E'). unfold us_next. cbn [fst]. unfold iobind at 1. unfold iobind at 1. rewrite E'. cbn [bind].
      assert (R : us_Read dbg (mkiter false (last (encode v) 0)) s' = Ok (s', Val (mkiter false (last (encode v) 0), Z.land (last (encode v) 0) (Z.shiftr 255 1)))).
      { unfold us_Read. cbn [it_val]. destruct (last_enc v Hv) as (a & c & Ea & Q). rewrite Ea, last_last, Q. unfold iobind. cbn [lift bind]. reflexivity. }
      rewrite R. cbn [bind]. unfold iobind at 1. destruct f as [|f]; [lia|]. cbn [us_copy fst]. unfold it_eq. cbn [it_live]. rewrite Hlst. cbn [negb andb orb bind]. exists s'. reflexivity.
    - inversion Hl as [|? ? Hx Hl']; subst x0 l0. change (encode_all (x :: l)) with (encode x ++ encode_all l) in Ed.
      assert (Q := us_char (pre ++ encode v) x (encode_all l) (last (encode v) 0) ltac:(rewrite <- app_assoc; exact Ed) Hx). rewrite app_length in Q.
      unfold us_next at 1. cbn [fst]. unfold iobind at 1. rewrite Q. cbn [bind]. unfold iobind at 1.
      destruct (IH (pre ++ encode v) x f lst) as (s' & E'); [rewrite <- app_assoc; exact Ed|exact Hx|exact Hl'|cbn [length] in Hf; lia|exact Hlst|]. rewrite app_length in E'. rewrite E'. exists s'. reflexivity.
  Qed.
End Input.
Lemma us_end_ok dbg s : us_end dbg s = Ok (s, Val (mkiter false 0, 0)).
Proof. reflexivity. Qed.
Lemma us_all_ok dbg l st e f : Z.land e 6 = 0 -> Forall is_char l -> Z.of_nat (length (encode_all l)) < 2 ^ 62 -> (length l + 1 < f)%nat ->
  exists s', us_all dbg f (mkis (encode_all l) 0 st e) = Ok (s', Val l).
Proof.
  intros He Hl HL Hf. unfold us_all, us_new. destruct Hl as [|v l Hv Hl].
  - destruct (byte_end dbg [] st e ltac:(cbn; lia) 0 He) as (s' & E'). cbn [length] in E'. change (Z.of_nat 0) with 0 in E'.
    change (encode_all []) with (@nil Z). unfold iobind at 1. unfold iobind at 1. unfold bi_new. rewrite E'. cbn [bind].
    assert (R : us_Read dbg (mkiter false 0) s' = Ok (s', Val (mkiter false 0, 0))) by reflexivity. rewrite R. cbn [bind]. unfold iobind at 1. rewrite us_end_ok. cbn [bind].
    destruct f as [|f]; [lia|]. exists s'. reflexivity.
  - change (encode_all (v :: l)) with (encode v ++ encode_all l) in *. unfold iobind at 1. unfold bi_new.
    pose proof (us_char dbg _ st e HL [] v (encode_all l) 0 eq_refl Hv) as Q. cbn [length] in Q. change (Z.of_nat 0) with 0 in Q. rewrite Q. cbn [bind].
    unfold iobind at 1. rewrite us_end_ok. cbn [bind].
    apply (us_copy_ok dbg _ st e HL He l [] v f (mkiter false 0, 0) eq_refl Hv Hl); [cbn [length] in Hf; lia|reflexivity].
Qed.
